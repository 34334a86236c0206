(** * PathDyn: the regular expressions of form_path do what SpecPath says. *)
From Verif Require Import PyBase DictFacts Regex Tree Results SpecPath PathFacts ResultsFacts.

(** greedy repetition of a character class *)
Fixpoint sstar (p : ascii -> bool) (k : str -> mres) (s : str) : mres :=
  match s with
  | [] => k []
  | x :: t => if p x then match sstar p k t with Some r => Some r | None => k (x :: t) end else k (x :: t)
  end.

Lemma mt_star_set ng it s c k :
  mt (RStar true (RSet ng it)) s c k = sstar (set_match ng it) (fun s' => k s' c) s.
Proof.
  cbn [mt].
  assert (H : forall n s, length s <= n ->
    (fix star (n0 : nat) (s0 : str) (c0 : caps) {struct n0} : mres :=
         let more :=
           match n0 with
           | O => None
           | S n' => match s0 with
                     | [] => None
                     | x :: t => if set_match ng it x then
                                   if Nat.ltb (length t) (length s0) then star n' t c0 else None
                                 else None end
           end in
         match more with Some x => Some x | None => k s0 c0 end) n s c
    = sstar (set_match ng it) (fun s' => k s' c) s).
  { clear s. induction n as [|n IH]; intros [|x t] Hl; simpl in Hl; try lia; try reflexivity.
    cbn [sstar]. destruct (set_match ng it x); [|reflexivity].
    assert (Nat.ltb (length t) (length (x :: t)) = true) as -> by (apply Nat.ltb_lt; simpl; lia).
    rewrite IH by lia. reflexivity. }
  apply (H (length s) s). lia.
Qed.

Lemma sstar_max p k w rest x :
  forallb p w = true -> k rest = Some x -> match rest with [] => True | y :: _ => p y = false end ->
  sstar p k (w ++ rest) = Some x.
Proof.
  intros Hw Hk Hr. induction w as [|y w IH]; simpl in *.
  - destruct rest as [|z rest]; simpl; [exact Hk|]. now rewrite Hr.
  - apply andb_true_iff in Hw as [H1 H2]. rewrite H1, (IH H2). reflexivity.
Qed.
Lemma sstar_through p k w rest x :
  forallb p w = true -> sstar p k rest = Some x -> sstar p k (w ++ rest) = Some x.
Proof.
  intros Hw Hk. induction w as [|y w IH]; simpl in *; [exact Hk|].
  apply andb_true_iff in Hw as [H1 H2]. rewrite H1, (IH H2). reflexivity.
Qed.
Lemma sstar_none p k s : (forall a b, s = a ++ b -> k b = None) -> sstar p k s = None.
Proof.
  induction s as [|x t IH]; intros H; simpl.
  - apply (H [] []). reflexivity.
  - rewrite IH; [|intros a b E; apply (H (x :: a) b); simpl; congruence].
    rewrite (H [] (x :: t) eq_refl). now destruct (p x).
Qed.

Lemma mt_lit l s c k : mt (rlit l) s c k = if prefixb l s then k (skipn (length l) s) c else None.
Proof.
  revert s; induction l as [|x l IH]; intros s; [reflexivity|].
  cbn [rlit mt]. unfold rchar. cbn [mt]. destruct s as [|y s]; [reflexivity|].
  unfold set_match. cbn [existsb citem_match]. rewrite orb_false_r. cbn [prefixb].
  destruct (Ascii.eqb x y); [|reflexivity]. cbn [xorb andb skipn length]. apply IH.
Qed.

Lemma prefixb_app l s : prefixb l (l ++ s) = true.
Proof. induction l as [|x l IH]; [reflexivity|]. simpl. rewrite Ascii.eqb_refl. exact IH. Qed.
Lemma skipn_app_len {A} (l s : list A) : skipn (length l) (l ++ s) = s.
Proof. induction l; simpl; auto. Qed.
Lemma firstn_app_len {A} (l s : list A) : firstn (length l) (l ++ s) = l.
Proof. induction l; simpl; congruence. Qed.
Lemma mt_lit_app l s c k : mt (rlit l) (l ++ s) c k = k s c.
Proof. rewrite mt_lit, prefixb_app, skipn_app_len. reflexivity. Qed.

Lemma braceless_app a b : braceless (a ++ b) = (braceless a && braceless b)%bool.
Proof. apply forallb_app. Qed.
Lemma braceless_head x s : braceless (x :: s) = true ->
  Ascii.eqb "{" x = false /\ Ascii.eqb "}" x = false /\ braceless s = true.
Proof.
  cbn [braceless forallb]. intros H. apply andb_true_iff in H as [H1 H2]. apply negb_true_iff, orb_false_iff in H1 as [H1 H3].
  rewrite Ascii.eqb_sym in H1. rewrite Ascii.eqb_sym in H3. auto.
Qed.
Lemma braceless_no_close s r : braceless s = true -> s <> [] -> prefixb $"}}" (s ++ r) = false.
Proof.
  destruct s as [|x s]; [congruence|]. intros H _. apply braceless_head in H as (_ & H & _).
  cbn [app prefixb list_ascii_of_string]. now rewrite H.
Qed.
Lemma braceless_no_open s r : braceless s = true -> s <> [] -> prefixb $"{{" (s ++ r) = false.
Proof.
  destruct s as [|x s]; [congruence|]. intros H _. apply braceless_head in H as (H & _ & _).
  cbn [app prefixb list_ascii_of_string]. now rewrite H.
Qed.
Lemma braceless_close s : braceless s = true -> prefixb $"}}" s = false.
Proof.
  intros H. destruct s as [|x s]; [reflexivity|]. rewrite <- (app_nil_r (x :: s)).
  apply braceless_no_close; [exact H|discriminate].
Qed.
Lemma braceless_split a b : braceless (a ++ b) = true -> braceless a = true /\ braceless b = true.
Proof. rewrite braceless_app. apply andb_true_iff. Qed.

Definition close_re : re := RSeq (RStar true rs) (rlit $"}}").

Lemma close_sstar s c k : mt close_re s c k =
  sstar is_space (fun s' => if prefixb $"}}" s' then k (skipn 2 s') c else None) s.
Proof.
  transitivity (mt (RStar true (RSet false [CSpaceC])) s c (fun s' c' => mt (rlit $"}}") s' c' k)); [reflexivity|].
  rewrite mt_star_set.
  assert (Hs : forall x, set_match false [CSpaceC] x = is_space x).
  { intros x. unfold set_match. cbn [existsb citem_match]. now rewrite orb_false_r, xorb_false_l. }
  induction s as [|x t IH]; cbn [sstar]; [now rewrite mt_lit|]. rewrite Hs, IH, mt_lit. reflexivity.
Qed.

Lemma close_none s c k : braceless s = true -> mt close_re s c k = None.
Proof.
  intros H. rewrite close_sstar. apply sstar_none. intros a b E. subst s.
  apply braceless_split in H as [_ H]. now rewrite braceless_close.
Qed.
Lemma close_none1 s c k : braceless s = true -> mt close_re ("}"%char :: s) c k = None.
Proof.
  intros H. rewrite close_sstar. cbn [sstar]. change (is_space "}") with false. cbn iota.
  cbn [prefixb list_ascii_of_string]. rewrite Ascii.eqb_refl. cbn [andb].
  destruct s as [|x s]; [reflexivity|]. apply braceless_head in H as (_ & H & _). now rewrite H.
Qed.
Lemma close_ok ws s c k x : all_space ws = true -> k s c = Some x -> mt close_re (ws ++ $"}}" ++ s) c k = Some x.
Proof.
  intros Hw Hk. rewrite close_sstar. apply sstar_max; [exact Hw| |reflexivity].
  rewrite prefixb_app. cbn [skipn list_ascii_of_string app]. exact Hk.
Qed.

(** the greedy [\S*] part followed by the closing braces *)
Lemma name_rest m ws post x (K : str -> mres) :
  no_space m = true -> all_space ws = true -> braceless post = true ->
  (forall s, exists c k, K s = mt close_re s c k) ->
  K (ws ++ $"}}" ++ post) = Some x ->
  sstar (fun ch => negb (is_space ch)) K (m ++ ws ++ $"}}" ++ post) = Some x.
Proof.
  intros Hm Hw Hp HK Hx. apply sstar_through; [exact Hm|].
  assert (HN : forall s, braceless s = true -> K s = None).
  { intros s Hs. destruct (HK s) as (c & k & ->). now apply close_none. }
  destruct ws as [|w ws].
  - cbn [app list_ascii_of_string] in Hx |- *. cbn [sstar]. change (is_space "}") with false. cbn [negb].
    rewrite sstar_none.
    2:{ intros a b E. subst post. apply HN. apply braceless_split in Hp. tauto. }
    destruct (HK ("}"%char :: post)) as (c & k & ->). rewrite close_none1 by exact Hp. exact Hx.
  - cbn [app sstar] in Hx |- *. cbn [all_space forallb] in Hw. apply andb_true_iff in Hw as [Hw1 Hw2]. rewrite Hw1. cbn [negb].
    exact Hx.
Qed.

Section Item.
Variables (pre ws1 m ws2 post : str).
Hypothesis Hpre : braceless pre = true.
Hypothesis Hw1 : all_space ws1 = true.
Hypothesis Hw2 : all_space ws2 = true.
Hypothesis Hpost : braceless post = true.
Hypothesis Hmb : braceless m = true.
Hypothesis Hms : no_space m = true.
Hypothesis Hmn : m <> [].

Definition core : str := $"{{" ++ ws1 ++ m ++ ws2 ++ $"}}" ++ post.
Definition dyn_text : str := pre ++ core.

Lemma m_head : exists y m', m = y :: m' /\ is_space y = false.
Proof.
  clear Hmb. destruct m as [|y m']; [congruence|]. exists y, m'. split; [reflexivity|].
  cbn [no_space forallb] in Hms. apply andb_true_iff in Hms as [H _]. now apply negb_true_iff.
Qed.

Lemma forallb_ext {A} (p q : A -> bool) l : (forall x, p x = q x) -> forallb p l = forallb q l.
Proof. intros H. induction l; simpl; congruence. Qed.
Lemma setS x : set_match false [CSpaceC] x = is_space x.
Proof. unfold set_match. cbn [existsb citem_match]. now rewrite orb_false_r, xorb_false_l. Qed.
Lemma setN x : set_match false [CNSpaceC] x = negb (is_space x).
Proof. unfold set_match. cbn [existsb citem_match]. now rewrite orb_false_r, xorb_false_l. Qed.
Lemma sstar_ext p q k s : (forall x, p x = q x) -> sstar p k s = sstar q k s.
Proof. intros H. induction s; simpl; [reflexivity|]. now rewrite H, IHs. Qed.

Lemma after_ws1 (K : str -> mres) r x : K (m ++ r) = Some x ->
  sstar (set_match false [CSpaceC]) K (ws1 ++ m ++ r) = Some x.
Proof.
  intros H. destruct m_head as (y & m' & Em & Hy). apply sstar_max.
  - rewrite (forallb_ext _ is_space) by apply setS. exact Hw1.
  - exact H.
  - rewrite Em. cbn [app]. now rewrite setS.
Qed.

Lemma sub_len (a b : str) : length (a ++ b) - length b = length a.
Proof. rewrite app_length. lia. Qed.

Lemma rmatch_dyn : rmatch dyn_re core = Some (post, [($"1", m)]).
Proof.
  unfold rmatch, dyn_re, core. rewrite mt_lit_prefix, prefixb_app, skipn_app_len.
  transitivity (mt (RStar true (RSet false [CSpaceC])) (ws1 ++ m ++ ws2 ++ $"}}" ++ post) []
    (fun s c => mt (RGroup $"1" (rplus rS)) s c (fun s' c' => mt close_re s' c' (fun s'' c'' => Some (s'', c''))))); [reflexivity|].
  rewrite mt_star_set. apply after_ws1.
  destruct m_head as (y & m' & Em & Hy).
  set (r := ws2 ++ $"}}" ++ post).
  transitivity (sstar (fun ch => negb (is_space ch))
    (fun s' => mt close_re s' (cap_set $"1" (firstn (length (m ++ r) - length s') (m ++ r)) []) (fun s'' c'' => Some (s'', c'')))
    (m' ++ r)).
  - rewrite Em at 1. cbn [app].
    transitivity (if set_match false [CNSpaceC] y then mt (RStar true (RSet false [CNSpaceC])) (m' ++ r) []
      (fun s' c' => mt close_re s' (cap_set $"1" (firstn (length (y :: m' ++ r) - length s') (y :: m' ++ r)) c') (fun s'' c'' => Some (s'', c'')))
      else None); [reflexivity|].
    rewrite setN, Hy. cbn [negb]. rewrite mt_star_set. rewrite (sstar_ext _ (fun ch => negb (is_space ch))) by apply setN.
    rewrite Em. reflexivity.
  - apply name_rest; auto.
    + rewrite Em in Hms. cbn [no_space forallb] in Hms. apply andb_true_iff in Hms. tauto.
    + intros s. eexists _, _. reflexivity.
    + unfold r. apply close_ok; [exact Hw2|]. fold r.
      change ($"}}" ++ post) with ($"}}" ++ post). rewrite sub_len, firstn_app_len. reflexivity.
Qed.

Lemma rmatch_var : rmatch (dyn_var_re m) core = Some (post, []).
Proof.
  unfold rmatch, dyn_var_re, core. rewrite mt_lit_prefix, prefixb_app, skipn_app_len.
  transitivity (mt (RStar true (RSet false [CSpaceC])) (ws1 ++ m ++ ws2 ++ $"}}" ++ post) []
    (fun s c => mt (rlit m) s c (fun s' c' => mt close_re s' c' (fun s'' c'' => Some (s'', c''))))); [reflexivity|].
  rewrite mt_star_set. apply after_ws1. rewrite mt_lit_app. apply close_ok; [exact Hw2|reflexivity].
Qed.

(** patterns that begin with the opening braces do not match braceless text *)
Lemma no_open_match r s : braceless s = true -> rmatch (RSeq (rlit $"{{") r) s = None.
Proof.
  intros H. unfold rmatch. rewrite mt_lit_prefix. destruct s as [|x s]; [reflexivity|].
  rewrite <- (app_nil_r (x :: s)), braceless_no_open; [reflexivity|exact H|discriminate].
Qed.
Lemma no_open_match_pre r x s t : braceless (x :: s) = true -> rmatch (RSeq (rlit $"{{") r) ((x :: s) ++ t) = None.
Proof.
  intros H. unfold rmatch. rewrite mt_lit_prefix, braceless_no_open; [reflexivity|exact H|discriminate].
Qed.

Lemma finditer_braceless r fuel : forall s pos, braceless s = true -> finditer_go fuel (RSeq (rlit $"{{") r) s pos = [].
Proof.
  induction fuel as [|f IH]; intros s pos H; [reflexivity|]. cbn [finditer_go]. rewrite no_open_match by exact H.
  destruct s as [|x s]; [reflexivity|]. apply IH. cbn [braceless forallb] in H. apply andb_true_iff in H. tauto.
Qed.
Lemma core_len : length post < length core.
Proof. unfold core. rewrite !app_length. cbn [length list_ascii_of_string]. lia. Qed.

Lemma finditer_dyn : forall fuel pos p, braceless p = true -> length (p ++ core) < fuel ->
  map (fun x => m_caps x) (finditer_go fuel dyn_re (p ++ core) pos) = [[($"1", m)]].
Proof.
  induction fuel as [|f IH]; intros pos p Hp Hl; [lia|]. cbn [finditer_go].
  destruct p as [|x p].
  - cbn [app]. rewrite rmatch_dyn.
    pose proof core_len as HL. assert (Hz : length core - length post <> 0) by lia.
    destruct (length core - length post); [congruence|]. cbn [map m_caps]. f_equal.
    unfold dyn_re. rewrite finditer_braceless by exact Hpost. reflexivity.
  - unfold dyn_re at 1. rewrite no_open_match_pre by exact Hp. cbn [app]. apply IH.
    + cbn [braceless forallb] in Hp. apply andb_true_iff in Hp. tauto.
    + cbn [app length] in Hl. lia.
Qed.

Lemma dyn_vars_text : dyn_vars dyn_text = [m].
Proof.
  unfold dyn_vars, finditer, dyn_text.
  pose proof (finditer_dyn (S (length (pre ++ core))) 0 pre Hpre ltac:(lia)) as H.
  remember (finditer_go (S (length (pre ++ core))) dyn_re (pre ++ core) 0) as L eqn:EL. clear EL.
  destruct L as [|a [|b L]]; cbn [map] in H; try discriminate.
  injection H as H. cbn [flat_map]. rewrite H. reflexivity.
Qed.

Lemma template_plain s : forall fuel, no_backslash s = true -> length s < fuel -> parse_template fuel s = Ok (map Some s).
Proof.
  induction s as [|c s IH]; intros [|f] H Hl; simpl in Hl; try lia; [reflexivity|].
  cbn [no_backslash forallb] in H. apply andb_true_iff in H as [H1 H2].
  cbn [parse_template]. rewrite H1. rewrite IH by (auto; lia). reflexivity.
Qed.
Lemma expand_plain s w : expand_template (map Some s) w = s.
Proof. induction s as [|c s IH]; simpl; congruence. Qed.

Lemma subt_braceless r tp fuel : forall s, braceless s = true -> subt_go fuel (RSeq (rlit $"{{") r) tp s = s.
Proof.
  induction fuel as [|f IH]; intros s H; [reflexivity|]. cbn [subt_go]. rewrite no_open_match by exact H.
  destruct s as [|x s]; [reflexivity|]. rewrite IH; [reflexivity|]. cbn [braceless forallb] in H. apply andb_true_iff in H. tauto.
Qed.
Lemma subt_dyn v : forall fuel p, braceless p = true -> length (p ++ core) < fuel ->
  subt_go fuel (dyn_var_re m) (map Some v) (p ++ core) = p ++ v ++ post.
Proof.
  induction fuel as [|f IH]; intros p Hp Hl; [lia|]. cbn [subt_go].
  destruct p as [|x p].
  - cbn [app]. rewrite rmatch_var.
    pose proof core_len as HL. assert (Hz : length core - length post <> 0) by lia.
    destruct (length core - length post); [congruence|]. rewrite expand_plain. f_equal.
    unfold dyn_var_re. now rewrite subt_braceless.
  - unfold dyn_var_re at 1. rewrite no_open_match_pre by exact Hp. cbn [app]. f_equal. apply IH.
    + cbn [braceless forallb] in Hp. apply andb_true_iff in Hp. tauto.
    + cbn [app length] in Hl. lia.
Qed.

Lemma re_sub_dyn v : no_backslash v = true -> re_sub (dyn_var_re m) v dyn_text = Ok (pre ++ v ++ post).
Proof.
  intros H. unfold re_sub. rewrite template_plain by (auto; lia). cbn [rbind]. f_equal.
  unfold dyn_text. apply subt_dyn; [exact Hpre|lia].
Qed.
End Item.

(** ** stars at the end of an item *)
Lemma lstrip_repeat n t : (match t with [] => True | c :: _ => c <> "*"%char end) ->
  lstrip_p (is_c star_c) (repeat "*"%char n ++ t) = t.
Proof.
  intros H. induction n as [|n IH]; [|exact IH].
  destruct t as [|c t]; [reflexivity|]. cbn [repeat app lstrip_p]. unfold is_c, star_c.
  destruct (Ascii.eqb_spec "*" c) as [<-|]; [congruence|reflexivity].
Qed.
Lemma rev_repeat {A} (x : A) n : rev (repeat x n) = repeat x n.
Proof.
  induction n as [|n IH]; [reflexivity|]. simpl. rewrite IH. clear. induction n; simpl; congruence.
Qed.
Lemma no_final_star_rev s : no_final_star s -> match rev s with [] => True | c :: _ => c <> "*"%char end.
Proof.
  intros H. destruct (rev s) as [|c t] eqn:E; [exact I|]. intros ->. apply (H (rev t)).
  rewrite <- (rev_involutive s), E. reflexivity.
Qed.
Lemma split_stars_render s n : no_final_star s -> split_stars (s ++ repeat "*"%char n) = (s, n).
Proof.
  intros H. unfold split_stars, rstrip_p. rewrite rev_app_distr, rev_repeat, lstrip_repeat by (now apply no_final_star_rev).
  rewrite rev_involutive, app_length, repeat_length. f_equal. lia.
Qed.

Lemma no_final_star_app a b : b <> [] -> no_final_star b -> no_final_star (a ++ b).
Proof.
  intros Hb H t E. destruct (exists_last Hb) as (b' & x & ->). rewrite app_assoc in E.
  apply app_inj_tail in E as [_ ->]. apply (H b'). reflexivity.
Qed.

Lemma dyn_no_final pre ws1 m ws2 post : no_final_star post ->
  no_final_star (pre ++ $"{{" ++ ws1 ++ m ++ ws2 ++ $"}}" ++ post).
Proof.
  intros H. rewrite !app_assoc. destruct post as [|c post].
  - rewrite app_nil_r. rewrite <- !app_assoc. rewrite !app_assoc. apply no_final_star_app; [discriminate|].
    intros t E. destruct t as [|a [|b [|? ?]]]; simpl in E; try discriminate.
  - apply no_final_star_app; [discriminate|exact H].
Qed.

Lemma clean_get d k v : clean_dict d -> dget d k = Some v -> no_backslash (py_str v) = true.
Proof.
  intros H Hg. apply dget_In in Hg. unfold clean_dict in H. rewrite Forall_forall in H. apply (H _ Hg).
Qed.
Lemma clean_del d k : clean_dict d -> clean_dict (ddel d k).
Proof.
  unfold clean_dict. rewrite !Forall_forall. intros H x Hx. apply H. eapply ddel_In; eauto.
Qed.
Lemma clean_set d k v : clean_dict d -> no_backslash (py_str v) = true -> clean_dict (dset d k v).
Proof.
  unfold clean_dict. rewrite !Forall_forall. intros H Hv x Hx. apply dset_In in Hx as [->|[Hx|Hx]]; auto. now rewrite Hx.
Qed.

(** ** the code resolves paths as SpecPath says *)
Theorem form_path_resolve vars ps : forall record seen,
  Forall pspec_ok ps -> clean_dict record -> clean_dict seen -> clean_dict vars ->
  form_path vars (map render ps) (VDict record) seen =
  match resolve vars ps record seen with
  | Ok (op, r, c) => Ok (op, VDict r, c)
  | Raise e => Raise e
  end.
Proof.
  induction ps as [|p ps IH]; intros record seen Hp Hr Hs Hv; [reflexivity|].
  inversion Hp as [|? ? Hp1 Hp2]; subst. cbn [map form_path].
  destruct p as [s n|pre ws1 m ws2 post n]; cbn [render pspec_ok resolve] in *.
  - destruct Hp1 as [H1 H2]. rewrite split_stars_render by exact H2.
    rewrite dyn_vars_static by (unfold static_item; now rewrite H1). cbn [subst_vars rbind].
    rewrite IH by assumption. destruct (resolve vars ps record seen) as [[[op r] c]|]; reflexivity.
  - destruct Hp1 as (H1 & H2 & H3 & H4 & H5 & H6 & H7 & H8).
    rewrite split_stars_render by (now apply dyn_no_final).
    pose proof (dyn_vars_text pre ws1 m ws2 post H1 H2 H3 H4 H6 H7) as HV.
    unfold dyn_text, core in HV. rewrite HV. cbn [subst_vars res_lookup rbind]. unfold look.
    assert (HS : forall v, no_backslash v = true ->
      re_sub (dyn_var_re m) v (pre ++ $"{{" ++ ws1 ++ m ++ ws2 ++ $"}}" ++ post) = Ok (pre ++ v ++ post)).
    { intros v Hvv. apply (re_sub_dyn pre ws1 m ws2 post); assumption. }
    destruct (dget record (KS m)) as [v|] eqn:E1.
    + assert (Hc : no_backslash (py_str v) = true) by (now apply (clean_get record (KS m))).
      rewrite HS by exact Hc. cbn [rbind res_pop].
      rewrite IH; [|assumption|now apply clean_del|now apply clean_set|assumption].
      destruct (resolve vars ps (ddel record (KS m)) (dset seen (KS m) v)) as [[[op r] c]|]; reflexivity.
    + destruct (dget seen (KS m)) as [v|] eqn:E2.
      * destruct v as [| | |s| | |]; try reflexivity.
        rewrite HS by (apply (clean_get seen (KS m) (VStr s)); assumption). cbn [rbind].
        rewrite IH by assumption. destruct (resolve vars ps record seen) as [[[op r] c]|]; reflexivity.
      * destruct (dget vars (KS m)) as [v|] eqn:E3; [|reflexivity].
        rewrite HS by (apply (clean_get vars (KS m)); assumption). cbn [rbind].
        rewrite IH by assumption. destruct (resolve vars ps record seen) as [[[op r] c]|]; reflexivity.
Qed.
