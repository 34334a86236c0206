(** * EscapeFacts: replacement texts with backslashes, and the keys made from them. *)
From Verif Require Import PyBase Regex Tree Results SpecPath DictFacts StrFacts PathFacts PathDyn.

Lemma all256 (P : ascii -> bool) : forallb P (map (fun n => ascii_of_N (N.of_nat n)) (seq 0 256)) = true -> forall c, P c = true.
Proof.
  intros H c. rewrite forallb_forall in H. apply H. rewrite <- (ascii_N_embedding c).
  apply in_map_iff. exists (N.to_nat (N_of_ascii c)). rewrite N2Nat.id. split; [reflexivity|].
  apply in_seq. pose proof (N_ascii_bounded c) as Hb. lia.
Qed.
Lemma octal_same c : octal c = octal_digit c.
Proof. apply eqb_prop. revert c. apply all256. vm_compute. reflexivity. Qed.
Lemma digit_same c : is_dec c = digit_char c.
Proof. apply eqb_prop. revert c. apply all256. vm_compute. reflexivity. Qed.
Lemma letter_same c : is_ascii_letter c = letter_char c.
Proof. apply eqb_prop. revert c. apply all256. vm_compute. reflexivity. Qed.
Lemma octal_is_digit c : octal_digit c = true -> digit_char c = true.
Proof. assert (H : forall c, implb (octal_digit c) (digit_char c) = true) by (apply all256; vm_compute; reflexivity). specialize (H c). destruct (octal_digit c); [intros _; exact H|discriminate]. Qed.
Lemma g_no_digit_letter e : octal_digit e = true -> Ascii.eqb e "\" = false /\ Ascii.eqb e "g" = false /\ letter_char e = false.
Proof.
  assert (H : forall c, implb (octal_digit c) (negb (Ascii.eqb c "\") && negb (Ascii.eqb c "g") && negb (letter_char c)) = true) by (apply all256; vm_compute; reflexivity).
  intros E. specialize (H e). rewrite E in H. cbn [implb] in H. rewrite !andb_true_iff, !negb_true_iff in H. tauto.
Qed.
Definition ptok (f : nat) (v : str) : Prop := forall whole,
  match parse_template f v with
  | Ok tp => writes whole v (expand_template tp whole)
  | Raise e => e = ReError /\ forall k, ~ writes whole v k
  end.
Lemma named_cases e n : In (e, n) named_escapes ->
  Ascii.eqb e "\" = false /\ Ascii.eqb e "g" = false /\ Ascii.eqb e "0" = false /\ digit_char e = false /\ octal_digit e = false /\ letter_char e = true.
Proof. intros H. cbn in H. repeat (destruct H as [H|H]; [injection H as <- <-; repeat split; reflexivity|]). contradiction. Qed.
Lemma wr_inv_char whole c v k : c <> bs -> writes whole (c :: v) k -> exists k', writes whole v k'.
Proof. intros Hc H. inversion H; subst; try congruence; eauto; exfalso; apply Hc; reflexivity. Qed.
(** the escapes, one by one *)
Ltac wrong :=
  solve [ exfalso; first
    [ congruence | discriminate
    | match goal with Hc : bs <> bs |- _ => apply Hc; reflexivity end
    | match goal with Hc : "\"%char <> bs |- _ => apply Hc; reflexivity end
    | match goal with Hn : In _ named_escapes |- _ => apply named_cases in Hn as (? & ? & ? & ? & ? & ?); first [congruence|discriminate] end
    | match goal with Hc : octal_digit _ = true |- _ => first [discriminate Hc | apply g_no_digit_letter in Hc as (? & ? & ?); first [congruence|discriminate]] end
    | match goal with Hc : octal_digit _ = true |- _ => apply octal_is_digit in Hc; first [congruence|discriminate] end ] ].
Lemma wr_inv_bs whole v k : writes whole (bs :: bs :: v) k -> exists k', writes whole v k'.
Proof. intros H. inversion H; subst; first [wrong|eauto]. Qed.
Lemma wr_inv_g whole v k : writes whole (bs :: "g"%char :: v) k -> exists v' k', v = $"<0>" ++ v' /\ writes whole v' k'.
Proof. intros H. inversion H; subst; try wrong. eexists _, _. split; [reflexivity|eassumption]. Qed.
Lemma wr_inv_0 whole v k : writes whole (bs :: "0"%char :: v) k ->
  (starts_octal v = false /\ exists k', writes whole v k') \/
  (exists d v' k', v = d :: v' /\ octal_digit d = true /\ starts_octal v' = false /\ writes whole v' k') \/
  (exists d d' v' k', v = d :: d' :: v' /\ octal_digit d = true /\ octal_digit d' = true /\ writes whole v' k').
Proof.
  intros H. inversion H; subst; try wrong.
  - left. eauto.
  - right. left. eauto 8.
  - right. right. eauto 10.
Qed.
Lemma wr_inv_digit whole e v k : e <> "0"%char -> digit_char e = true -> writes whole (bs :: e :: v) k ->
  exists d d' v' k', v = d :: d' :: v' /\ octal_digit e = true /\ octal_digit d = true /\ octal_digit d' = true /\
    (oval e * 64 + oval d * 8 + oval d' <= 255)%N /\ writes whole v' k'.
Proof. intros H0 He H. inversion H; subst; try wrong. eauto 12. Qed.
Lemma wr_inv_named whole e n v k : In (e, n) named_escapes -> writes whole (bs :: e :: v) k -> exists k', writes whole v k'.
Proof.
  intros Hn H. pose proof (named_cases _ _ Hn) as (N1 & N2 & N3 & N4 & N5 & N6). inversion H; subst; first [wrong|eauto].
Qed.
Lemma wr_inv_letter whole e v k : (forall n, ~ In (e, n) named_escapes) -> e <> "g"%char -> letter_char e = true -> ~ writes whole (bs :: e :: v) k.
Proof. intros Hn Hg Hl H. inversion H; subst; try wrong. eapply Hn; eauto. Qed.
Lemma wr_inv_other whole e v k : e <> bs -> digit_char e = false -> letter_char e = false -> writes whole (bs :: e :: v) k -> exists k', writes whole v k'.
Proof. intros Hb Hd Hl H. inversion H; subst; first [wrong|eauto]. Qed.
Lemma wr_inv_end whole k : ~ writes whole [bs] k.
Proof. intros H. inversion H; subst; wrong. Qed.
Lemma ptok_step f w v (g : list (option ascii) -> list (option ascii)) :
  ptok f w ->
  (forall whole tp, writes whole w (expand_template tp whole) -> writes whole v (expand_template (g tp) whole)) ->
  (forall whole k, writes whole v k -> exists k', writes whole w k') ->
  forall whole, match (do r <- parse_template f w; Ok (g r)) with
  | Ok tp => writes whole v (expand_template tp whole)
  | Raise e => e = ReError /\ forall k, ~ writes whole v k
  end.
Proof.
  intros H H1 H2 whole. specialize (H whole). destruct (parse_template f w) as [tp|e]; cbn [rbind].
  - now apply H1.
  - destruct H as [-> H]. split; [reflexivity|]. intros k Hk. destruct (H2 whole k Hk) as [k' Hk']. exact (H k' Hk').
Qed.
Lemma chr_dval d : dval d = oval d. Proof. reflexivity. Qed.
Theorem template_writes f : forall v, length v < f -> ptok f v.
Proof.
  induction f as [|f IH]; intros v Hl; [lia|]. intros whole. cbn [parse_template].
  destruct v as [|c v]; [constructor|]. cbn [length] in Hl.
  destruct (Ascii.eqb_spec c "\") as [->|Hc]; cbn [negb].
  2:{ apply (ptok_step f v (c :: v) (cons (Some c))); [apply IH; lia| |].
      - intros wh tp H. cbn [expand_template]. apply wr_char; [exact Hc|exact H].
      - intros wh k H. eapply wr_inv_char; eauto. }
  destruct v as [|e v]; [split; [reflexivity|intros k; apply wr_inv_end]|]. cbn [length] in Hl.
  destruct (Ascii.eqb_spec e "\") as [->|He].
  { apply (ptok_step f v (bs :: bs :: v) (cons (Some "\"%char))); [apply IH; lia| |].
    - intros wh tp H. cbn [expand_template]. apply wr_backslash. exact H.
    - intros wh k H. eapply wr_inv_bs; eauto. }
  destruct (Ascii.eqb_spec e "g") as [->|Hg].
  { destruct (prefixb $"<0>" v) eqn:Ep.
    - apply (proj1 (StrFacts.prefixb_app _ _)) in Ep as [v' ->]. change (skipn 3 ($"<0>" ++ v')) with v'.
      apply (ptok_step f v' (bs :: "g"%char :: ($"<0>" ++ v')) (cons None)).
      + apply IH. cbn [app length list_ascii_of_string] in Hl. lia.
      + intros wh tp H. cbn [expand_template]. exact (wr_whole wh v' _ H).
      + intros wh k H. apply wr_inv_g in H as (v2 & k2 & E & H). apply app_inv_head in E as <-. eauto.
    - split; [reflexivity|]. intros k H. apply wr_inv_g in H as (v2 & k2 & -> & _). rewrite prefixb_app in Ep. discriminate. }
  destruct (Ascii.eqb_spec e "0") as [->|H0].
  { destruct v as [|d1 v].
    - change (writes whole ($"\0" ++ []) [chr 0]). apply wr_0; [reflexivity|constructor].
    - cbn [length] in Hl. rewrite octal_same. destruct (octal_digit d1) eqn:E1.
      + destruct v as [|d2 v].
        * change (writes whole ($"\0" ++ [d1]) [chr (oval d1)]). apply wr_0d; [exact E1|reflexivity|constructor].
        * cbn [length] in Hl. rewrite octal_same. destruct (octal_digit d2) eqn:E2.
          -- apply (ptok_step f v (bs :: "0"%char :: d1 :: d2 :: v) (cons (Some (chr (dval d1 * 8 + dval d2))))); [apply IH; lia| |].
             ++ intros wh tp H. cbn [expand_template]. exact (wr_0dd wh d1 d2 v _ E1 E2 H).
             ++ intros wh k H. apply wr_inv_0 in H as [[Hs _]|[(d & v' & k' & E & _ & Hs & _)|(d & d' & v' & k' & E & _ & _ & H)]].
                ** cbn [starts_octal] in Hs. congruence.
                ** injection E as <- <-. cbn [starts_octal] in Hs. congruence.
                ** injection E as <- <- <-. eauto.
          -- apply (ptok_step f (d2 :: v) (bs :: "0"%char :: d1 :: d2 :: v) (cons (Some (chr (dval d1))))); [apply IH; cbn [length]; lia| |].
             ++ intros wh tp H. cbn [expand_template]. exact (wr_0d wh d1 (d2 :: v) _ E1 E2 H).
             ++ intros wh k H. apply wr_inv_0 in H as [[Hs _]|[(d & v' & k' & E & _ & Hs & H)|(d & d' & v' & k' & E & _ & Hd & H)]].
                ** cbn [starts_octal] in Hs. congruence.
                ** injection E as <- <-. eauto.
                ** injection E as <- <- <-. congruence.
      + apply (ptok_step f (d1 :: v) (bs :: "0"%char :: d1 :: v) (cons (Some (chr 0)))); [apply IH; cbn [length]; lia| |].
        * intros wh tp H. cbn [expand_template]. exact (wr_0 wh (d1 :: v) _ E1 H).
        * intros wh k H. apply wr_inv_0 in H as [[_ H]|[(d & v' & k' & E & Hd & _)|(d & d' & v' & k' & E & Hd & _)]]; [exact H| |].
          -- injection E; intros; congruence.
          -- injection E; intros; congruence. }
  rewrite digit_same. destruct (digit_char e) eqn:Ed.
  { destruct v as [|d1 [|d2 v]]; try (split; [reflexivity|]; intros k H; apply wr_inv_digit in H as (d & d' & v' & k' & E & _); [discriminate|exact H0|exact Ed]).
    cbn [length] in Hl. rewrite !octal_same. destruct (octal_digit e && octal_digit d1 && octal_digit d2)%bool eqn:E3.
    - apply andb_true_iff in E3 as [E3 O2]. apply andb_true_iff in E3 as [O O1]. destruct (N.leb_spec (dval e * 64 + dval d1 * 8 + dval d2) 255) as [Hle|Hgt].
      + apply (ptok_step f v (bs :: e :: d1 :: d2 :: v) (cons (Some (chr (dval e * 64 + dval d1 * 8 + dval d2))))); [apply IH; lia| |].
        * intros wh tp H. cbn [expand_template]. exact (wr_ddd wh e d1 d2 v _ H0 O O1 O2 Hle H).
        * intros wh k H. apply wr_inv_digit in H as (d & d' & v' & k' & E & _ & _ & _ & _ & H); [|exact H0|exact Ed]. injection E as <- <- <-. eauto.
      + split; [reflexivity|]. intros k H. apply wr_inv_digit in H as (d & d' & v' & k' & E & _ & _ & _ & Hle & _); [|exact H0|exact Ed].
        injection E as <- <- <-. change dval with oval in Hgt. lia.
    - split; [reflexivity|]. intros k H. apply wr_inv_digit in H as (d & d' & v' & k' & E & O & O1 & O2 & _); [|exact H0|exact Ed].
      injection E as <- <- <-. rewrite O, O1, O2 in E3. discriminate. }
  assert (HN : forall n, In (e, n) named_escapes -> match (do r <- parse_template f v; Ok (Some (chr n) :: r)) with
    | Ok tp => writes whole (bs :: e :: v) (expand_template tp whole) | Raise x => x = ReError /\ forall k, ~ writes whole (bs :: e :: v) k end).
  { intros n Hn. apply (ptok_step f v (bs :: e :: v) (cons (Some (chr n)))); [apply IH; lia| |].
    - intros wh tp H. cbn [expand_template]. now apply wr_named.
    - intros wh k H. eapply wr_inv_named; eauto. }
  assert (HN' : forall n, In (e, n) named_escapes -> e = "n"%char \/ e = "t"%char \/ e = "r"%char \/ e = "a"%char \/ e = "b"%char \/ e = "f"%char \/ e = "v"%char).
  { intros n Hn. cbn in Hn. repeat (destruct Hn as [Hn|Hn]; [injection Hn as <- <-; tauto|]). contradiction. }
  destruct (Ascii.eqb_spec e "n") as [Ex|X1]; [apply HN; rewrite Ex; cbn; tauto|].
  destruct (Ascii.eqb_spec e "t") as [Ex|X2]; [apply HN; rewrite Ex; cbn; tauto|].
  destruct (Ascii.eqb_spec e "r") as [Ex|X3]; [apply HN; rewrite Ex; cbn; tauto|].
  destruct (Ascii.eqb_spec e "a") as [Ex|X4]; [apply HN; rewrite Ex; cbn; tauto|].
  destruct (Ascii.eqb_spec e "b") as [Ex|X5]; [apply HN; rewrite Ex; cbn; tauto|].
  destruct (Ascii.eqb_spec e "f") as [Ex|X6]; [apply HN; rewrite Ex; cbn; tauto|].
  destruct (Ascii.eqb_spec e "v") as [Ex|X7]; [apply HN; rewrite Ex; cbn; tauto|].
  rewrite letter_same. destruct (letter_char e) eqn:El.
  - split; [reflexivity|]. intros k. apply wr_inv_letter; [|exact Hg|exact El]. intros n Hn. specialize (HN' n Hn). tauto.
  - apply (ptok_step f v (bs :: e :: v) (fun r => Some "\"%char :: Some e :: r)); [apply IH; lia| |].
    + intros wh tp H. cbn [expand_template]. apply wr_other; assumption.
    + intros wh k H. eapply wr_inv_other; eauto.
Qed.
Theorem writes_one whole v k : writes whole v k -> forall k', writes whole v k' -> k = k'.
Proof.
  induction 1 as [|c v k Hc H IH|v k H IH|e n v k Hn H IH|v k H IH|v k Hs H IH|d v k Hd Hs H IH|d d' v k Hd Hd' H IH|d d' d'' v k H0 Hd Hd' Hd'' Hle H IH|e v k Hb Hd Hl H IH]; intros k2 H2.
  - inversion H2; subst; reflexivity.
  - inversion H2; subst; try wrong. f_equal. auto.
  - inversion H2; subst; try wrong. f_equal. auto.
  - pose proof (named_cases _ _ Hn) as (N1 & N2 & N3 & N4 & N5 & N6). inversion H2; subst; try wrong. f_equal; [|auto].
    match goal with Hx : In (e, _) named_escapes, Hy : In (e, _) named_escapes |- _ => cbn in Hx, Hy;
      repeat (destruct Hx as [Hx|Hx]; [injection Hx as <- <-; repeat (destruct Hy as [Hy|Hy]; [first [discriminate Hy|injection Hy as <-; reflexivity]|]); contradiction|]); contradiction end.
  - inversion H2; subst; try wrong. f_equal. auto.
  - inversion H2; subst; try wrong; [f_equal; auto| |]; cbn [starts_octal] in *; congruence.
  - inversion H2; subst; try wrong; cbn [starts_octal] in *; try congruence. f_equal. auto.
  - inversion H2; subst; try wrong; cbn [starts_octal] in *; try congruence. f_equal. auto.
  - inversion H2; subst; try wrong. f_equal. auto.
  - inversion H2; subst; try wrong. f_equal. f_equal. auto.
Qed.

(** ** one dynamic item *)
Section Item.
Variables (pre ws1 m ws2 post : str).
Hypothesis Hpre : braceless pre = true.
Hypothesis Hw1 : all_space ws1 = true.
Hypothesis Hw2 : all_space ws2 = true.
Hypothesis Hpost : braceless post = true.
Hypothesis Hms : no_space m = true.
Hypothesis Hmn : m <> [].
Local Notation core := (core ws1 m ws2 post).
Local Notation whole := (placeholder ws1 m ws2).
Lemma core_whole : core = whole ++ post.
Proof using. unfold PathDyn.core, placeholder. now rewrite <- !app_assoc. Qed.
Lemma core_first : firstn (length core - length post) core = whole.
Proof using. rewrite core_whole, app_length. replace (length whole + length post - length post) with (length whole) by lia. rewrite firstn_app, Nat.sub_diag, firstn_all. cbn [firstn]. apply app_nil_r. Qed.
Lemma subt_any tp : forall fuel p, braceless p = true -> length (p ++ core) < fuel ->
  subt_go fuel (dyn_var_re m) tp (p ++ core) = p ++ expand_template tp whole ++ post.
Proof using Hw1 Hw2 Hpost Hms Hmn.
  induction fuel as [|f IH]; intros p Hp Hl; [lia|]. cbn [subt_go].
  destruct p as [|x p].
  - cbn [app]. rewrite rmatch_var by assumption.
    pose proof (core_len ws1 m ws2 post) as HL. pose proof core_first as HF. destruct (length core - length post) as [|n] eqn:En; [lia|]. rewrite HF. f_equal.
    unfold dyn_var_re. now rewrite subt_braceless.
  - unfold dyn_var_re at 1. rewrite no_open_match_pre by exact Hp. cbn [app]. f_equal. apply IH.
    + cbn [braceless forallb] in Hp. apply andb_true_iff in Hp. tauto.
    + cbn [app length] in Hl. lia.
Qed.
Lemma sub_braceless r tp fuel : forall s, braceless s = true -> sub_go fuel (RSeq (rlit $"{{") r) tp s = s.
Proof using.
  induction fuel as [|f IH]; intros s H; [reflexivity|]. cbn [sub_go]. rewrite no_open_match by exact H.
  destruct s as [|x s]; [reflexivity|]. rewrite IH; [reflexivity|]. cbn [braceless forallb] in H. apply andb_true_iff in H. tauto.
Qed.
Lemma sub_any v : forall fuel p, braceless p = true -> length (p ++ core) < fuel ->
  sub_go fuel (dyn_var_re m) v (p ++ core) = p ++ v ++ post.
Proof using Hw1 Hw2 Hpost Hms Hmn.
  induction fuel as [|f IH]; intros p Hp Hl; [lia|]. cbn [sub_go].
  destruct p as [|x p].
  - cbn [app]. rewrite rmatch_var by assumption.
    pose proof (core_len ws1 m ws2 post) as HL. destruct (length core - length post) as [|n] eqn:En; [lia|]. f_equal.
    unfold dyn_var_re. now rewrite sub_braceless.
  - unfold dyn_var_re at 1. rewrite no_open_match_pre by exact Hp. cbn [app]. f_equal. apply IH.
    + cbn [braceless forallb] in Hp. apply andb_true_iff in Hp. tauto.
    + cbn [app length] in Hl. lia.
Qed.
Lemma re_sub_item v :
  (exists k, writes whole v k /\ re_sub (dyn_var_re m) v (pre ++ core) = Ok (pre ++ k ++ post)) \/
  ((forall k, ~ writes whole v k) /\ re_sub (dyn_var_re m) v (pre ++ core) = Raise ReError).
Proof using Hpre Hw1 Hw2 Hpost Hms Hmn.
  pose proof (template_writes (S (length v)) v ltac:(lia) whole) as H. unfold re_sub.
  destruct (parse_template (S (length v)) v) as [tp|e].
  - left. exists (expand_template tp whole). split; [exact H|]. cbn [rbind]. f_equal. apply subt_any; [exact Hpre|lia].
  - right. destruct H as [-> H]. split; [exact H|reflexivity].
Qed.
End Item.

Section Keys.
Variables (pre ws1 m ws2 post : str) (n : nat).
Hypothesis Hok : pspec_ok (PDyn pre ws1 m ws2 post n).
Local Notation whole := (placeholder ws1 m ws2).
Local Notation item := (render (PDyn pre ws1 m ws2 post n)).
Lemma form_path_item vars path data seen : form_path vars (item :: path) data seen =
  do (oi, data1, cache1) <- subst_vars vars [m] (pre ++ core ws1 m ws2 post) data seen;
  match oi with
  | None => Ok (None, data1, cache1)
  | Some it => do (rest, data2, cache2) <- form_path vars path data1 cache1; Ok (option_map (cons (it, n)) rest, data2, cache2)
  end.
Proof using Hok.
  destruct Hok as (H1 & H2 & H3 & H4 & H5 & H6 & H7 & H8). cbn [form_path render].
  rewrite split_stars_render by (now apply dyn_no_final).
  pose proof (dyn_vars_text pre ws1 m ws2 post H1 H2 H3 H4 H6 H7) as HV. unfold dyn_text, core in HV. rewrite HV. reflexivity.
Qed.
Theorem own_value vars path record seen v : no_marker pre post -> dget record (KS m) = Some v ->
  exists k, own_key whole (py_str v) k /\
    form_path vars (item :: path) (VDict record) seen =
    do (rest, r, c) <- form_path vars path (VDict (ddel record (KS m))) (dset seen (KS m) v);
    Ok (option_map (cons (pre ++ k ++ post, n)) rest, r, c).
Proof using Hok.
  intros Hm Hv. pose proof form_path_item as HF. destruct Hok as (H1 & H2 & H3 & H4 & H5 & H6 & H7 & H8).
  rewrite HF. cbn [subst_vars res_lookup rbind]. rewrite Hv.
  destruct (re_sub_item pre ws1 m ws2 post H1 H2 H3 H4 H6 H7 (py_str v)) as [(k & Hk & ->)|[Hk ->]].
  - exists k. split; [now left|]. reflexivity.
  - exists (py_str v). split; [now right|].
    assert (HE : replace_all replace_me (py_str v) (re_sub_lit (dyn_var_re m) replace_me (pre ++ core ws1 m ws2 post)) = pre ++ py_str v ++ post).
    { unfold re_sub_lit. rewrite sub_any; [|assumption..|lia]. unfold replace_me. rewrite replace_split by discriminate.
      unfold no_marker in Hm. rewrite Hm. reflexivity. }
    rewrite HE. reflexivity.
Qed.
Theorem borrowed_value vars path record seen s : dget record (KS m) = None ->
  (dget seen (KS m) = Some (VStr s) \/ dget seen (KS m) = None /\ exists v, dget vars (KS m) = Some v /\ s = py_str v) ->
  (forall k, writes whole s k ->
     form_path vars (item :: path) (VDict record) seen =
     do (rest, r, c) <- form_path vars path (VDict record) seen;
     Ok (option_map (cons (pre ++ k ++ post, n)) rest, r, c)) /\
  ((forall k, ~ writes whole s k) -> form_path vars (item :: path) (VDict record) seen = Raise ReError).
Proof using Hok.
  intros Hr Hs. pose proof form_path_item as HF. destruct Hok as (H1 & H2 & H3 & H4 & H5 & H6 & H7 & H8).
  pose proof (re_sub_item pre ws1 m ws2 post H1 H2 H3 H4 H6 H7 s) as HS.
  assert (HX : subst_vars vars [m] (pre ++ core ws1 m ws2 post) (VDict record) seen =
    do it' <- re_sub (dyn_var_re m) s (pre ++ core ws1 m ws2 post); Ok (Some it', VDict record, seen)).
  { cbn [subst_vars res_lookup rbind]. rewrite Hr. destruct Hs as [->|(-> & v & -> & ->)]; reflexivity. }
  split.
  - intros k Hk. rewrite HF, HX. destruct HS as [(k' & Hk' & ->)|[Hn _]]; [|exfalso; exact (Hn k Hk)].
    rewrite (writes_one _ _ _ Hk _ Hk'). reflexivity.
  - intros Hn. rewrite HF, HX. destruct HS as [(k' & Hk' & _)|[_ ->]]; [exfalso; exact (Hn k' Hk')|]. reflexivity.
Qed.
End Keys.
(** values without backslashes write themselves *)
Lemma writes_plain whole v : no_backslash v = true -> writes whole v v.
Proof.
  induction v as [|c v IH]; intros H; [constructor|]. cbn [no_backslash forallb] in H. apply andb_true_iff in H as [H1 H2].
  apply wr_char; [|now apply IH]. intros ->. discriminate.
Qed.
