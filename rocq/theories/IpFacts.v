(** * IpFacts: the texts of addresses are read as SpecIp says (C136). *)
From Coq Require Import Lia.
From Verif Require Import PyBase DictFacts StrFacts MatchFuncs Attributes LexFacts Ip SpecVariable SpecOutcome SpecIp.
Local Open Scope string_scope.
Local Open Scope list_scope.
Local Open Scope N_scope.

(** ** digits *)
Lemma digit10 c d : digit 10 c d <-> is_dec c = true /\ d = digit_val c.
Proof.
  unfold is_dec, digit_val. rewrite btw. split.
  - intros H. destruct H; [split; [assumption|reflexivity]| |]; lia.
  - intros [H ->]. constructor; lia.
Qed.
Lemma digit16 c d : digit 16 c d <-> hexval c = Some d.
Proof.
  unfold hexval, is_dec. destruct (between 48 57 c) eqn:A; [|destruct (between 97 102 c) eqn:B; [|destruct (between 65 70 c) eqn:C]];
    rewrite ?btw, ?btw_f in *; split; intros H.
  - destruct H; f_equal; lia.
  - injection H as <-. constructor; lia.
  - destruct H; f_equal; lia.
  - injection H as <-. constructor; lia.
  - destruct H; f_equal; lia.
  - injection H as <-. constructor; lia.
  - destruct H; lia.
  - discriminate.
Qed.
Lemma digits_snoc s : forall a c, digits_val (s ++ [c]) a = 10 * digits_val s a + digit_val c.
Proof. induction s as [|x s IH]; intros a c; [reflexivity|]. cbn [app digits_val]. apply IH. Qed.
Lemma reads_ne b s n : reads b s n -> s <> [].
Proof. intros [c d H|s' n' c d H1 H2]; [discriminate|]. now destruct s'. Qed.
Lemma reads10 s n : reads 10 s n <-> s <> [] /\ forallb is_dec s = true /\ digits_val s 0 = n.
Proof.
  split.
  - induction 1 as [c d H|s n c d H IH Hd].
    + apply digit10 in H as [H ->]. split; [discriminate|]. cbn [forallb digits_val]. rewrite H. split; [reflexivity|]. lia.
    + destruct IH as (N & F & V). apply digit10 in Hd as [Hc ->]. split; [now destruct s|]. split; [rewrite forallb_app; cbn [forallb]; now rewrite F, Hc|].
      rewrite digits_snoc. lia.
  - revert n. induction s as [|c s IH] using rev_ind; intros n (N & F & V); [congruence|]. rewrite forallb_app in F. apply andb_prop in F as [F1 F2]. cbn [forallb] in F2.
    rewrite andb_true_r in F2. rewrite digits_snoc in V. destruct s as [|x s].
    + cbn [app digits_val] in *. rewrite <- V. replace (10 * 0 + digit_val c) with (digit_val c) by lia. constructor. now apply digit10.
    + rewrite <- V. constructor; [apply IH; split; [discriminate|split; [exact F1|reflexivity]]|now apply digit10].
Qed.
Lemma hex_snoc s : forall a c, hex_val (s ++ [c]) a = match hex_val s a, hexval c with Some n, Some d => Some (16 * n + d) | _, _ => None end.
Proof.
  induction s as [|x s IH]; intros a c; cbn [app hex_val]; [destruct (hexval c); reflexivity|]. destruct (hexval x); [apply IH|reflexivity].
Qed.
Lemma reads16 s n : reads 16 s n <-> s <> [] /\ hex_val s 0 = Some n.
Proof.
  split.
  - induction 1 as [c d H|s n c d H IH Hd].
    + apply digit16 in H. split; [discriminate|]. cbn [hex_val]. rewrite H. f_equal; lia.
    + destruct IH as (N & V). apply digit16 in Hd. split; [now destruct s|]. rewrite hex_snoc, V, Hd. reflexivity.
  - revert n. induction s as [|c s IH] using rev_ind; intros n (N & V); [congruence|]. rewrite hex_snoc in V. destruct (hex_val s 0) as [m|] eqn:E; [|discriminate].
    destruct (hexval c) as [d|] eqn:Ec; [|discriminate]. assert (n = 16 * m + d) by congruence. subst n. clear V. apply digit16 in Ec. destruct s as [|x s].
    + cbn [hex_val] in E. assert (m = 0) by congruence. subst m. replace (16 * 0 + d) with d by lia. now constructor.
    + constructor; [apply IH; split; [discriminate|reflexivity]|exact Ec].
Qed.
Lemma digits_lower s : forall a, a * 10 ^ N.of_nat (length s) <= digits_val s a.
Proof.
  induction s as [|c s IH]; intros a; cbn [length digits_val]; [cbn; lia|]. rewrite Nnat.Nat2N.inj_succ, N.pow_succ_r'. specialize (IH (10 * a + digit_val c)). nia.
Qed.

(** ** quarters *)
Lemma zero_char c : is_dec c = true -> digit_val c = 0 -> c = "0"%char.
Proof. unfold is_dec, digit_val. rewrite btw. intros H1 H2. assert (code c = 48) by lia. rewrite <- (ascii_N_embedding c). unfold code in H. now rewrite H. Qed.
Lemma octet_iff s n : octet s = Some n <-> quarter s n.
Proof.
  unfold octet, quarter. rewrite reads10. destruct s as [|c t].
  { split; [discriminate|]. intros ((H & _) & _). congruence. }
  destruct (forallb is_dec (c :: t)) eqn:F; cbn [negb]; [|split; [discriminate|]; intros ((_ & H & _) & _); congruence].
  assert (Fc : is_dec c = true) by (cbn [forallb] in F; now apply andb_prop in F as [F _]).
  destruct (3 <? length (c :: t))%nat eqn:L; [apply PeanoNat.Nat.ltb_lt in L|apply PeanoNat.Nat.ltb_ge in L].
  { split; [discriminate|]. intros ((_ & _ & V) & B & Z). exfalso.
    assert (D : 1 <= digit_val c).
    { destruct (N.eq_dec (digit_val c) 0) as [E|E]; [|lia]. apply (zero_char c Fc) in E. subst c. destruct Z as [Z|Z]; [|exact (False_ind _ (Z t eq_refl))].
      assert (t = []) by (change (t_ "0") with ["0"%char] in Z; congruence). subst. cbn in L. lia. }
    cbn [digits_val] in V. pose proof (digits_lower t (10 * 0 + digit_val c)) as K. rewrite V in K. cbn [length] in L.
    assert (10 ^ 3 <= 10 ^ N.of_nat (length t)) by (apply N.pow_le_mono_r; lia). change (10 ^ 3) with 1000 in H. nia. }
  destruct (Ascii.eqb c "0" && negb (match t with [] => true | _ => false end))%bool eqn:Z.
  { apply andb_prop in Z as [Z1 Z2]. apply Ascii.eqb_eq in Z1. subst c. split; [discriminate|]. intros (_ & _ & [Z|Z]); [|exfalso; exact (Z t eq_refl)].
    assert (t = []) by (change (t_ "0") with ["0"%char] in Z; congruence). now subst. }
  cbv zeta. destruct (255 <? digits_val (c :: t) 0) eqn:B; [apply N.ltb_lt in B|apply N.ltb_ge in B].
  { split; [discriminate|]. intros ((_ & _ & V) & B' & _). lia. }
  split.
  - intros E. injection E as <-. split; [split; [discriminate|split; reflexivity]|]. split; [exact B|]. apply andb_false_iff in Z as [Z|Z].
    + right. intros t' E. apply Ascii.eqb_neq in Z. change (t_ "0" ++ t') with ("0"%char :: t') in E. congruence.
    + destruct t; [|discriminate]. destruct (Ascii.eqb c "0") eqn:Ec; [apply Ascii.eqb_eq in Ec; subst c; now left|].
      right. intros t' E. apply Ascii.eqb_neq in Ec. change (t_ "0" ++ t') with ("0"%char :: t') in E. congruence.
  - intros ((_ & _ & V) & _ & _). now rewrite V.
Qed.
Lemma reads10_in s n c : reads 10 s n -> In c s -> is_dec c = true.
Proof. intros H Hc. apply reads10 in H as (_ & F & _). rewrite forallb_forall in F. now apply F. Qed.
Lemma reads10_lacks s n x : reads 10 s n -> is_dec x = false -> lacks x s.
Proof. intros H Hx Hc. apply (reads10_in _ _ _ H) in Hc. congruence. Qed.
Lemma reads16_lacks s n x : reads 16 s n -> hexval x = None -> lacks x s.
Proof.
  intros H Hx. induction H as [c d H|s n c d H IH Hd].
  - intros [K|[]]. subst c. apply digit16 in H. congruence.
  - intros K. apply in_app_or in K as [K|[K|[]]]; [exact (IH K)|]. subst c. apply digit16 in Hd. congruence.
Qed.

(** ** IPv4 *)
Lemma v4_iff s n : v4_int s = Some n <-> ipv4 s n.
Proof.
  unfold v4_int. split.
  - intros H. pose proof (join_split ($".") s ltac:(discriminate)) as J. destruct (split $"." s) as [|a [|b [|c [|d [|e l]]]]]; cbn [map] in H; try discriminate;
      repeat match type of H with context [match octet ?x with _ => _ end] => destruct (octet x) eqn:?; try discriminate end.
    injection H as <-. cbn [join] in J. rewrite <- J. repeat match goal with K : octet _ = Some _ |- _ => apply octet_iff in K end.
    match goal with |- ipv4 _ ?v => match goal with A : quarter a ?x, B : quarter b ?y, C : quarter c ?z, D : quarter d ?w |- _ => replace v with (x * 2 ^ 24 + y * 2 ^ 16 + z * 2 ^ 8 + w) by (cbn; lia) end end.
    now apply quad.
  - intros H. destruct H as [a b c d x y z w A B C D].
    assert (E : split $"." (join $"." [a; b; c; d]) = [a; b; c; d]).
    { apply split_join; [discriminate|].
      assert (L : forall s n, quarter s n -> lacks "."%char s) by (intros s n K; refine (reads10_lacks _ _ _ (proj1 K) _); reflexivity).
      apply Forall_cons; [exact (L _ _ A)|]. apply Forall_cons; [exact (L _ _ B)|]. apply Forall_cons; [exact (L _ _ C)|]. apply Forall_cons; [exact (L _ _ D)|]. apply Forall_nil. }
    cbn [join] in E. change (t_ ".") with ($"."). rewrite E. cbn [map]. apply octet_iff in A, B, C, D. rewrite A, B, C, D. f_equal. cbn. lia.
Qed.
Lemma ipv4_below s n : ipv4 s n -> n < 2 ^ 32.
Proof. intros [a b c d x y z w (_ & A & _) (_ & B & _) (_ & C & _) (_ & D & _)]. change (2 ^ 24) with 16777216. change (2 ^ 16) with 65536. change (2 ^ 8) with 256. change (2 ^ 32) with 4294967296. lia. Qed.
Lemma ipv4_lacks s n x : ipv4 s n -> is_dec x = false -> x <> "."%char -> lacks x s.
Proof.
  intros [a b c d p q r w (A & _) (B & _) (C & _) (D & _)] Hx Hd K. change (t_ ".") with ["."%char] in K.
  repeat (apply in_app_or in K as [K|K]; [first [now apply (reads10_in _ _ _ A) in K; congruence|now apply (reads10_in _ _ _ B) in K; congruence|now apply (reads10_in _ _ _ C) in K; congruence|destruct K as [K|[]]; congruence]|]).
  apply (reads10_in _ _ _ D) in K. congruence.
Qed.
Lemma ipv4_dot s n : ipv4 s n -> In "."%char s.
Proof. intros [a b c d p q r w _ _ _ _]. apply in_or_app. right. apply in_or_app. left. now left. Qed.

(** ** prefix lengths *)
Lemma ctz_spec q : exists m, N.pos q = (2 * m + 1) * 2 ^ ctz q.
Proof.
  induction q as [q _|q [m IH]|]; cbn [ctz].
  - exists (N.pos q). cbn. lia.
  - exists m. rewrite N.pow_succ_r'. change (N.pos q~0) with (2 * N.pos q). rewrite IH. lia.
  - exists 0. reflexivity.
Qed.
Lemma mask_length_iff n p : n < 2 ^ 32 -> mask_length 32 n = Some p <-> p <= 32 /\ n = 2 ^ 32 - 2 ^ (32 - p).
Proof.
  intros Hn. split.
  - unfold mask_length, zero_bits. destruct n as [|q]; cbv zeta.
    + change (32 - 32) with 0. rewrite N.shiftr_0_l. cbn. intros H. injection H as <-. split; [lia|reflexivity].
    + destruct (ctz_spec q) as [m Hm]. set (k := ctz q) in *.
      assert (Hk : k < 32). { apply (N.pow_lt_mono_r_iff 2); [lia|]. nia. }
      rewrite N.min_r by lia. destruct (_ =? _) eqn:E; [|discriminate]. intros H. assert (Ep : p = 32 - k) by congruence. subst p. clear H. apply N.eqb_eq in E.
      rewrite N.shiftr_div_pow2, N.shiftl_mul_pow2, N.mul_1_l in E. rewrite Hm in E |- *. rewrite N.div_mul in E by (apply N.pow_nonzero; lia).
      split; [lia|]. rewrite E. replace (32 - (32 - k)) with k by lia. rewrite N.mul_sub_distr_r, <- N.pow_add_r. replace (32 - k + k) with 32 by lia. lia.
  - intros [Hp ->]. assert (In p (map N.of_nat (seq 0 33))). { apply in_map_iff. exists (N.to_nat p). split; [lia|]. apply in_seq. lia. }
    vm_compute in H. repeat (destruct H as [<-|H]; [vm_compute; reflexivity|]). destruct H.
Qed.
Lemma prefix_number_iff w s p : prefix_number w s = Some p <-> reads 10 s p /\ p <= w.
Proof.
  rewrite reads10. unfold prefix_number. destruct s as [|c t]; [split; [discriminate|intros ((H & _) & _); congruence]|].
  destruct (forallb is_dec (c :: t)) eqn:F; [|split; [discriminate|intros ((_ & H & _) & _); congruence]]. cbv zeta.
  destruct (w <? digits_val (c :: t) 0) eqn:L; [apply N.ltb_lt in L|apply N.ltb_ge in L]; split.
  - discriminate.
  - intros ((_ & _ & V) & H). lia.
  - intros H. injection H as <-. split; [split; [discriminate|split; reflexivity]|exact L].
  - intros ((_ & _ & V) & H). now rewrite V.
Qed.
Lemma v4_mask_iff s p : v4_mask s = Some p <-> prefix_length false s p.
Proof.
  unfold v4_mask. destruct (prefix_number 32 s) as [q|] eqn:E.
  { apply prefix_number_iff in E as [E Hq]. split.
    - intros H. injection H as <-. now apply pl_number.
    - intros H. inversion H as [six s' p' R Hp|s' p' Hp K|s' p' Hp K]; subst.
      + apply reads10 in E as (_ & _ & <-). apply reads10 in R as (_ & _ & <-). reflexivity.
      + apply ipv4_dot in K. apply (reads10_in _ _ _ E) in K. discriminate.
      + apply ipv4_dot in K. apply (reads10_in _ _ _ E) in K. discriminate. }
  destruct (v4_int s) as [n|] eqn:V.
  2:{ split; [discriminate|]. intros H. inversion H as [six s' p' R Hp|s' p' Hp K|s' p' Hp K]; subst.
      - assert (prefix_number 32 s = Some p) by (now apply prefix_number_iff). congruence.
      - apply v4_iff in K. congruence.
      - apply v4_iff in K. congruence. }
  assert (N0 : forall p, ~ (reads 10 s p /\ p <= 32)) by (intros q K; apply prefix_number_iff in K; congruence).
  pose proof (proj1 (v4_iff _ _) V) as V4. pose proof (ipv4_below _ _ V4) as B.
  assert (Two : forall m, ipv4 s m -> m = n) by (intros m K; apply v4_iff in K; congruence).
  assert (X : N.lxor n (N.ones 32) < 2 ^ 32 /\ N.lxor n (N.ones 32) = 2 ^ 32 - 1 - n).
  { assert (E1 : N.lxor n (N.ones 32) = N.lnot n 32) by reflexivity. destruct (N.eq_dec n 0) as [->|Hn]; [split; reflexivity|].
    rewrite E1, N.lnot_sub_low by (apply N.log2_lt_pow2; lia). change (N.ones 32) with 4294967295. change (2 ^ 32) with 4294967296 in *. lia. }
  destruct X as [X1 X2].
  destruct (mask_length 32 n) as [q|] eqn:M.
  - pose proof (proj1 (mask_length_iff _ _ B) M) as [Hq En]. split.
    + intros H. injection H as <-. apply pl_netmask; [exact Hq|]. now rewrite <- En.
    + intros H. inversion H as [six s' p' R Hp|s' p' Hp K|s' p' Hp K]; subst s'.
      * exfalso. subst. exact (N0 p (conj R Hp)).
      * apply Two in K. rewrite <- M. apply mask_length_iff; [exact B|]. split; [exact Hp|congruence].
      * exfalso. apply Two in K. rewrite <- K in En. clear -Hp Hq En.
        assert (In p (map N.of_nat (seq 1 31))). { apply in_map_iff. exists (N.to_nat p). split; [lia|]. apply in_seq. lia. }
        assert (In q (map N.of_nat (seq 0 33))). { apply in_map_iff. exists (N.to_nat q). split; [lia|]. apply in_seq. lia. }
        assert (A : forallb (fun p => forallb (fun q => negb (2 ^ (32 - p) - 1 =? 2 ^ 32 - 2 ^ (32 - q))) (map N.of_nat (seq 0 33))) (map N.of_nat (seq 1 31)) = true) by (vm_compute; reflexivity).
        rewrite forallb_forall in A. specialize (A _ H). cbv beta in A. rewrite forallb_forall in A. specialize (A _ H0). rewrite En, N.eqb_refl in A. discriminate.
  - assert (M0 : forall q, q <= 32 -> n <> 2 ^ 32 - 2 ^ (32 - q)). { intros q Hq K. assert (mask_length 32 n = Some q) by (apply mask_length_iff; auto). congruence. }
    rewrite (mask_length_iff _ _ X1), X2. split.
    + intros [Hp E2]. assert (P1 : 2 ^ (32 - p) <= 2 ^ 32) by (apply N.pow_le_mono_r; lia). assert (P0 : 2 ^ (32 - p) <> 0) by (apply N.pow_nonzero; lia). assert (En : n = 2 ^ (32 - p) - 1) by lia.
      apply pl_hostmask; [|now rewrite <- En]. split.
      * destruct (N.eq_dec p 0) as [->|]; [|lia]. elim (M0 32); [lia|]. rewrite En. reflexivity.
      * destruct (N.eq_dec p 32) as [->|]; [|lia]. elim (M0 0); [lia|]. rewrite En. reflexivity.
    + intros H. inversion H as [six s' p' R Hp|s' p' Hp K|s' p' Hp K]; subst s'.
      * exfalso. subst. exact (N0 p (conj R Hp)).
      * exfalso. apply Two in K. exact (M0 p Hp (eq_sym K)).
      * apply Two in K. split; [lia|]. assert (2 ^ (32 - p) <= 2 ^ 32) by (apply N.pow_le_mono_r; lia). assert (2 ^ (32 - p) <> 0) by (apply N.pow_nonzero; lia). lia.
Qed.

(** ** IPv6 *)
Lemma group_iff s n : hextet (inl s) = Some n <-> group s n.
Proof.
  unfold group. rewrite reads16. cbn [hextet]. destruct s as [|c t]; [split; [discriminate|intros ((H & _) & _); congruence]|].
  destruct (hex_val (c :: t) 0) as [m|]; [|split; [discriminate|intros ((_ & H) & _); discriminate]].
  destruct (4 <? length (c :: t))%nat eqn:L; [apply PeanoNat.Nat.ltb_lt in L|apply PeanoNat.Nat.ltb_ge in L]; split.
  - discriminate.
  - intros (_ & H). lia.
  - intros H. split; [split; [discriminate|exact H]|exact L].
  - intros ((_ & H) & _). exact H.
Qed.
Notation hx := (fun p h => hextet p = Some h).
Lemma hx_full p h : hextet p = Some h -> empty_part p = false.
Proof. destruct p as [[|c s]|n]; [discriminate|reflexivity|reflexivity]. Qed.
Lemma hx_all l ns : Forall2 hx l ns -> existsb empty_part l = false.
Proof. induction 1 as [|p h l ns H _ IH]; cbn [existsb]; [reflexivity|]. now rewrite (hx_full _ _ H). Qed.
Definition step (n g : N) : N := n * 2 ^ 16 + g.
Lemma add_iff l : forall n r, add_hextets l n = Some r <-> exists ns, Forall2 hx l ns /\ r = fold_left step ns n.
Proof.
  induction l as [|p l IH]; intros n r; cbn [add_hextets].
  - split; [intros H; exists []; split; [constructor|cbn; congruence]|]. intros (ns & H & ->). inversion H. reflexivity.
  - destruct (hextet p) as [h|] eqn:E.
    + rewrite IH. rewrite N.shiftl_mul_pow2. split.
      * intros (ns & H & ->). exists (h :: ns). split; [now constructor|reflexivity].
      * intros (ns & H & ->). inversion H as [|? h' ? ns' K1 K2]; subst. exists ns'. split; [exact K2|]. cbn [fold_left]. unfold step at 2. congruence.
    + split; [discriminate|]. intros (ns & H & _). inversion H; subst. congruence.
Qed.
Lemma zeros_fold k : forall n, fold_left step (repeat 0 k) n = n * 2 ^ (16 * N.of_nat k).
Proof.
  induction k as [|k IH]; intros n; [cbn; lia|]. cbn [repeat fold_left]. rewrite IH. unfold step. rewrite Nnat.Nat2N.inj_succ.
  replace (16 * N.succ (N.of_nat k)) with (16 + 16 * N.of_nat k) by lia. rewrite N.pow_add_r. lia.
Qed.
Lemma number_zeros ns1 k ns2 : number_of (ns1 ++ repeat 0 k ++ ns2) = fold_left step ns2 (N.shiftl (fold_left step ns1 0) (16 * N.of_nat k)).
Proof. unfold number_of. change (fun n g => n * 2 ^ 16 + g) with step. now rewrite !fold_left_app, zeros_fold, N.shiftl_mul_pow2. Qed.
Lemma cut_empty_some l : forall a b, cut_empty l = Some (a, b) -> l = a ++ inl [] :: b /\ existsb empty_part a = false.
Proof.
  induction l as [|p l IH]; intros a b H; cbn [cut_empty] in H; [discriminate|]. destruct (empty_part p) eqn:E.
  - injection H as <- <-. destruct p as [[|c s]|n]; try discriminate. split; reflexivity.
  - destruct (cut_empty l) as [[a' b']|]; [|discriminate]. injection H as <- <-. destruct (IH _ _ eq_refl) as [-> K]. split; [reflexivity|]. cbn [existsb]. now rewrite E.
Qed.
Lemma cut_empty_at a b : existsb empty_part a = false -> cut_empty (a ++ inl [] :: b) = Some (a, b).
Proof.
  induction a as [|p a IH]; intros H; [reflexivity|]. cbn [existsb] in H. apply orb_false_iff in H as [H1 H2]. cbn [app cut_empty]. rewrite H1, (IH H2). reflexivity.
Qed.
Lemma cut_empty_none l : cut_empty l = None <-> existsb empty_part l = false.
Proof.
  induction l as [|p l IH]; cbn [cut_empty existsb]; [tauto|]. destruct (empty_part p); cbn [orb]; [split; discriminate|].
  destruct (cut_empty l) as [[a b]|]; [split; [discriminate|intros H; apply IH in H; discriminate]|]. tauto.
Qed.
Lemma f2_len {A B} (R : A -> B -> Prop) l l' : Forall2 R l l' -> length l = length l'.
Proof. induction 1; cbn; congruence. Qed.
Lemma beside_iff p without whole l : beside (empty_part p) without whole = Some l <-> (p = inl [] /\ without = [] /\ l = []) \/ (p <> inl [] /\ l = whole).
Proof.
  unfold beside. destruct p as [[|c s]|n]; cbn [empty_part].
  - destruct without as [|x t]; cbn [is_nil]; split.
    + intros H. left. repeat split; congruence.
    + intros [(_ & _ & ->)|[K _]]; congruence.
    + discriminate.
    + intros [(_ & K & _)|[K _]]; congruence.
  - split; [intros H; right; split; congruence|]. intros [(K & _)|[_ ->]]; congruence.
  - split; [intros H; right; split; congruence|]. intros [(K & _)|[_ ->]]; congruence.
Qed.
Lemma v6_parts_iff p0 mid pl n : v6_parts p0 mid pl = Some n <->
  (exists ns, Forall2 hx (p0 :: mid ++ [pl]) ns /\ length ns = 8%nat /\ n = number_of ns) \/
  (exists a b hi lo ns1 ns2 k, mid = a ++ inl [] :: b /\
     (p0 = inl [] /\ a = [] /\ hi = [] \/ hi = p0 :: a) /\ (pl = inl [] /\ b = [] /\ lo = [] \/ lo = b ++ [pl]) /\
     Forall2 hx hi ns1 /\ Forall2 hx lo ns2 /\ (length ns1 + k + length ns2 = 8)%nat /\ (0 < k)%nat /\ n = number_of (ns1 ++ repeat 0 k ++ ns2)).
Proof.
  split.
  - unfold v6_parts. destruct (9 <? _)%nat; [discriminate|]. destruct (cut_empty mid) as [[a b]|] eqn:C.
    + destruct (existsb empty_part b) eqn:Eb; [discriminate|]. destruct (beside (empty_part p0) a (p0 :: a)) as [hi|] eqn:B1; [|discriminate].
      destruct (beside (empty_part pl) b (b ++ [pl])) as [lo|] eqn:B2; [|discriminate]. cbv zeta. destruct (_ <? 1)%nat eqn:L; [discriminate|]. apply PeanoNat.Nat.ltb_ge in L.
      destruct (add_hextets hi 0) as [x|] eqn:Eh; [|discriminate]. intros H. apply add_iff in Eh as (ns1 & F1 & ->). apply add_iff in H as (ns2 & F2 & ->).
      apply beside_iff in B1, B2. apply cut_empty_some in C as [-> Ea]. right. exists a, b, hi, lo, ns1, ns2, (8 - (length hi + length lo))%nat.
      rewrite number_zeros. pose proof (f2_len _ _ _ F1). pose proof (f2_len _ _ _ F2). repeat split; try assumption; try lia; tauto.
    + destruct (_ && _ && _)%bool eqn:E; [|discriminate]. apply andb_prop in E as [E E2]. apply andb_prop in E as [E E1]. apply PeanoNat.Nat.eqb_eq in E.
      intros H. apply add_iff in H as (ns & F & ->). left. exists ns. split; [exact F|]. split; [|reflexivity].
      rewrite <- (f2_len _ _ _ F). cbn [length]. rewrite app_length. cbn [length]. lia.
  - intros [(ns & F & L & ->)|(a & b & hi & lo & ns1 & ns2 & k & -> & H1 & H2 & F1 & F2 & L & K & ->)].
    + pose proof (f2_len _ _ _ F) as Lm. cbn [length] in Lm. rewrite app_length in Lm. cbn [length] in Lm. pose proof (hx_all _ _ F) as E.
      cbn [existsb] in E. rewrite existsb_app in E. cbn [existsb] in E. apply orb_false_iff in E as [E0 E]. apply orb_false_iff in E as [Em E]. rewrite orb_false_r in E.
      unfold v6_parts. replace (9 <? S (S (length mid)))%nat with false by (symmetry; apply PeanoNat.Nat.ltb_ge; lia).
      rewrite (proj2 (cut_empty_none mid) Em), E0, E. replace (Nat.eqb (length mid) 6) with true by (symmetry; apply PeanoNat.Nat.eqb_eq; lia). cbn [andb negb].
      apply add_iff. exists ns. split; [exact F|reflexivity].
    + pose proof (f2_len _ _ _ F1) as L1. pose proof (f2_len _ _ _ F2) as L2.
      assert (Ea : existsb empty_part a = false). { destruct H1 as [(_ & -> & _)| ->]; [reflexivity|]. apply hx_all in F1. cbn [existsb] in F1. now apply orb_false_iff in F1. }
      assert (Eb : existsb empty_part b = false). { destruct H2 as [(_ & -> & _)| ->]; [reflexivity|]. apply hx_all in F2. rewrite existsb_app in F2. now apply orb_false_iff in F2. }
      assert (B1 : beside (empty_part p0) a (p0 :: a) = Some hi). { apply beside_iff. destruct H1 as [H1| ->]; [now left|]. right. split; [|reflexivity]. intros ->. inversion F1. discriminate. }
      assert (B2 : beside (empty_part pl) b (b ++ [pl]) = Some lo). { apply beside_iff. destruct H2 as [H2| ->]; [now left|]. right. split; [|reflexivity]. intros ->. apply hx_all in F2. rewrite existsb_app in F2. cbn in F2. now rewrite orb_true_r in F2. }
      assert (La : (length a <= length hi)%nat). { destruct H1 as [(_ & -> & ->)| ->]; cbn; lia. }
      assert (Lb : (length b <= length lo)%nat). { destruct H2 as [(_ & -> & ->)| ->]; [cbn; lia|]. rewrite app_length. lia. }
      assert (Lh : (length a = 0 \/ S (length a) = length hi)%nat). { destruct H1 as [(_ & -> & ->)| ->]; [left|right]; reflexivity. }
      assert (Ll : (length b = 0 \/ S (length b) = length lo)%nat). { destruct H2 as [(_ & -> & ->)| ->]; [left; reflexivity|right]. rewrite app_length. cbn. lia. }
      unfold v6_parts. rewrite app_length. cbn [length]. replace (9 <? S (S (length a + S (length b))))%nat with false by (symmetry; apply PeanoNat.Nat.ltb_ge; lia).
      rewrite (cut_empty_at a b Ea), Eb, B1, B2. cbv zeta. replace (8 - (length hi + length lo))%nat with k by lia.
      replace (k <? 1)%nat with false by (symmetry; apply PeanoNat.Nat.ltb_ge; lia). rewrite (proj2 (add_iff hi 0 (fold_left step ns1 0)) (ex_intro _ ns1 (conj F1 eq_refl))).
      apply add_iff. exists ns2. split; [exact F2|]. apply number_zeros.
Qed.

(** the parts that a list of texts gives: a dotted last one is two *)
Inductive parts : list str -> list part -> Prop :=
| ps_plain l : existsb (Ascii.eqb ".") (last l []) = false -> parts l (map inl l)
| ps_dotted l s n : existsb (Ascii.eqb ".") s = true -> ipv4 s n -> parts (l ++ [s]) (map inl l ++ [inr (N.shiftr n 16); inr (N.land n 65535)]).
Lemma dot_in s : existsb (Ascii.eqb ".") s = true <-> In "."%char s.
Proof. rewrite existsb_exists. split; [intros (x & H & E); apply Ascii.eqb_eq in E; congruence|intros H; exists "."%char; split; [exact H|reflexivity]]. Qed.
Lemma group_lacks s n x : group s n -> hexval x = None -> lacks x s.
Proof. intros [H _] Hx. exact (reads16_lacks _ _ _ H Hx). Qed.
Lemma group_nodot s n : group s n -> existsb (Ascii.eqb ".") s = false.
Proof. intros H. destruct (existsb _ s) eqn:E; [|reflexivity]. apply dot_in in E. exfalso. refine (group_lacks _ _ "."%char H _ E). reflexivity. Qed.
Lemma groups_iff l ns : Forall2 hx (map inl l) ns <-> Forall2 group l ns.
Proof.
  split.
  - intros H. remember (map inl l) as q. revert l Heqq. induction H as [|p h q ns Hp _ IH]; intros [|s l] E; try discriminate; [constructor|]. cbn [map] in E.
    assert (p = inl s) by congruence. subst p. constructor; [now apply group_iff|]. apply IH. congruence.
  - induction 1 as [|s n l ns H _ IH]; cbn [map]; constructor; [now apply group_iff|exact IH].
Qed.
Lemma halves n : N.shiftr n 16 = n / 2 ^ 16 /\ N.land n 65535 = n mod 2 ^ 16.
Proof. split; [apply N.shiftr_div_pow2|]. change 65535 with (N.ones 16). apply N.land_ones. Qed.
Lemma f2_app_l {A B} (R : A -> B -> Prop) a b l : Forall2 R (a ++ b) l <-> exists x y, l = x ++ y /\ Forall2 R a x /\ Forall2 R b y.
Proof.
  split.
  - intros H. apply Forall2_app_inv_l in H as (x & y & H1 & H2 & ->). exists x, y. auto.
  - intros (x & y & -> & H1 & H2). now apply Forall2_app.
Qed.
Lemma f2_app_l' {A B} (R : A -> B -> Prop) a b l : Forall2 R (a ++ b) l -> exists x y, l = x ++ y /\ Forall2 R a x /\ Forall2 R b y.
Proof. intros H. apply Forall2_app_inv_l in H as (x & y & H1 & H2 & ->). eauto. Qed.
Lemma ending_groups l ns : Forall2 group l ns -> ending l ns.
Proof. induction 1; constructor; assumption. Qed.
Lemma ending_split l ns : ending l ns -> Forall2 group l ns \/ exists l0 s n ns0, l = l0 ++ [s] /\ ns = ns0 ++ [n / 2 ^ 16; n mod 2 ^ 16] /\ ipv4 s n /\ Forall2 group l0 ns0.
Proof.
  induction 1 as [|s n H|s n l ns Hg _ [IH|(l0 & s' & m & ns0 & -> & -> & K & IH)]].
  - left. constructor.
  - right. exists [], s, n, []. repeat split; [exact H|constructor].
  - left. now constructor.
  - right. exists (s :: l0), s', m, (n :: ns0). repeat split; [exact K|now constructor].
Qed.
Lemma ending_join l0 ns0 s n : Forall2 group l0 ns0 -> ipv4 s n -> ending (l0 ++ [s]) (ns0 ++ [n / 2 ^ 16; n mod 2 ^ 16]).
Proof. induction 1; intros H4; cbn [app]; [now constructor|]. constructor; auto. Qed.
Lemma last_nodot l ns : l <> [] -> Forall2 group l ns -> existsb (Ascii.eqb ".") (last l []) = false.
Proof.
  intros Hl H. destruct (exists_last Hl) as (l' & s & ->). rewrite last_last. apply f2_app_l' in H as (x & y & _ & _ & H). inversion H; subst. eapply group_nodot; eassumption.
Qed.
Lemma parts_iff l q ns : l <> [] -> parts l q -> Forall2 hx q ns <-> ending l ns.
Proof.
  intros Hl H. destruct H as [l H|l s n H K].
  - rewrite groups_iff. split; [apply ending_groups|]. intros E. apply ending_split in E as [E|(l0 & s & n & ns0 & -> & _ & K & _)]; [exact E|].
    rewrite last_last in H. apply ipv4_dot, dot_in in K. congruence.
  - destruct (halves n) as [-> ->]. split.
    + intros F. apply f2_app_l' in F as (x & y & -> & F1 & F2). apply groups_iff in F1. inversion F2 as [|? ? ? ? A B]; subst. inversion B as [|? ? ? ? A' B']; subst. inversion B'; subst.
      assert (y0 = n / 2 ^ 16) by (change (Some (n / 2 ^ 16) = Some y0) in A; congruence). assert (y = n mod 2 ^ 16) by (change (Some (n mod 2 ^ 16) = Some y) in A'; congruence). subst y0 y. now apply ending_join.
    + intros E. apply ending_split in E as [E|(l0 & s' & m & ns0 & El & -> & K' & E)].
      * apply f2_app_l' in E as (x & y & -> & _ & F2). inversion F2; subst. match goal with G : group s _ |- _ => apply group_nodot in G; congruence end.
      * apply app_inj_tail in El as [<- <-]. assert (m = n) by (pose proof (proj2 (v4_iff _ _) K); pose proof (proj2 (v4_iff _ _) K'); congruence). subst m. apply Forall2_app; [now apply groups_iff|].
        constructor; [reflexivity|]. constructor; [reflexivity|]. constructor.
Qed.

(** the text's pieces: first, those between, last *)
Definition v6_of (p0 : str) (mid : list str) (pl : str) : option N :=
  if existsb (Ascii.eqb ".") pl then
    match v4_int pl with Some n => v6_parts (inl p0) (map inl mid ++ [inr (N.shiftr n 16)]) (inr (N.land n 65535)) | None => None end
  else v6_parts (inl p0) (map inl mid) (inl pl).
Lemma map_inl_cut l a b : map inl l = a ++ inl [] :: b :> list part -> exists x y, l = x ++ [] :: y /\ a = map inl x /\ b = map inl y.
Proof.
  revert a. induction l as [|s l IH]; intros [|p a] H; try discriminate; cbn [map app] in H.
  - exists [], l. assert (s = []) by congruence. subst s. repeat split. congruence.
  - assert (E : map inl l = a ++ inl [] :: b) by congruence. destruct (IH _ E) as (x & y & -> & -> & ->). exists (s :: x), y. repeat split. cbn [map]. congruence.
Qed.
(** [side x l]: the pieces on one side of "::" *)
Definition side (x l : list str) : Prop := x = [[]] /\ l = [] \/ x = l /\ l <> [].
Inductive conv (mid : list str) (pl : str) : list part -> part -> Prop :=
| cv_plain : existsb (Ascii.eqb ".") pl = false -> conv mid pl (map inl mid) (inl pl)
| cv_dotted n : existsb (Ascii.eqb ".") pl = true -> ipv4 pl n -> conv mid pl (map inl mid ++ [inr (N.shiftr n 16)]) (inr (N.land n 65535)).
Lemma conv_parts mid pl q l : conv mid pl q l -> parts (mid ++ [pl]) (q ++ [l]).
Proof.
  intros [H|n H K].
  - replace (map inl mid ++ [inl pl : part]) with (map (@inl str N) (mid ++ [pl])) by now rewrite map_app. apply ps_plain. now rewrite last_last.
  - rewrite <- app_assoc. now apply ps_dotted.
Qed.
Lemma v6_of_conv p0 mid pl n : v6_of p0 mid pl = Some n <-> exists q l, conv mid pl q l /\ v6_parts (inl p0) q l = Some n.
Proof.
  unfold v6_of. destruct (existsb _ pl) eqn:E.
  - destruct (v4_int pl) as [m|] eqn:V.
    + split.
      * intros H. eexists _, _. split; [|exact H]. apply cv_dotted; [exact E|now apply v4_iff].
      * intros (q & l & H & K). destruct H as [H|n' H H']; [congruence|]. apply v4_iff in H'. assert (n' = m) by congruence. now subst.
    + split; [discriminate|]. intros (q & l & H & K). destruct H as [H|n' H H']; [congruence|]. apply v4_iff in H'. congruence.
  - split.
    + intros H. eexists _, _. split; [now apply cv_plain|exact H].
    + intros (q & l & H & K). destruct H as [H|n' H H']; [exact K|congruence].
Qed.
Lemma conv_cut mid pl a b l : conv mid pl (a ++ inl [] :: b) l -> exists A B, mid = A ++ [] :: B /\ a = map inl A /\ conv B pl b l.
Proof.
  intros H. remember (a ++ inl [] :: b) as q. destruct H as [H|n H K].
  - apply map_inl_cut in Heqq as (A & B & -> & -> & ->). exists A, B. repeat split. now apply cv_plain.
  - destruct b as [|p b] using rev_ind.
    + replace (a ++ [inl []]) with (a ++ [inl [] : part]) in Heqq by reflexivity. apply app_inj_tail in Heqq as [_ E]. discriminate.
    + clear IHb. rewrite app_comm_cons, app_assoc in Heqq. apply app_inj_tail in Heqq as [Em <-]. apply map_inl_cut in Em as (A & B & -> & -> & ->). exists A, B. repeat split. now apply cv_dotted.
Qed.
Lemma conv_join A B pl b l : conv B pl b l -> conv (A ++ [] :: B) pl (map inl A ++ inl [] :: b) l.
Proof.
  intros [H|n H K].
  - replace (map inl A ++ inl [] :: map inl B) with (map (@inl str N) (A ++ [] :: B)) by now rewrite map_app. now apply cv_plain.
  - replace (map inl A ++ inl [] :: map inl B ++ [inr (N.shiftr n 16)]) with (map (@inl str N) (A ++ [] :: B) ++ [inr (N.shiftr n 16)]) by (rewrite map_app, <- app_assoc; reflexivity). now apply cv_dotted.
Qed.
Lemma v6_of_iff p0 mid pl n : v6_of p0 mid pl = Some n <->
  (exists ns, ending (p0 :: mid ++ [pl]) ns /\ length ns = 8%nat /\ n = number_of ns) \/
  (exists A B l1 l2 ns1 ns2 k, mid = A ++ [] :: B /\ side (p0 :: A) l1 /\ side (B ++ [pl]) l2 /\ Forall2 group l1 ns1 /\ ending l2 ns2 /\
     (length ns1 + k + length ns2 = 8)%nat /\ (0 < k)%nat /\ n = number_of (ns1 ++ repeat 0 k ++ ns2)).
Proof.
  assert (NE : forall B, B ++ [pl] <> []) by (intros [|]; discriminate).
  rewrite v6_of_conv. split.
  - intros (q & l & C & H). apply v6_parts_iff in H as [(ns & F & L & ->)|(a & b & hi & lo & ns1 & ns2 & k & -> & H1 & H2 & F1 & F2 & L & K & ->)].
    + left. exists ns. split; [|split; [exact L|reflexivity]]. inversion F as [|? h ? ns' F1 F2]; subst. constructor; [now apply group_iff|].
      apply (parts_iff _ (q ++ [l])); [apply NE|now apply conv_parts|exact F2].
    + right. apply conv_cut in C as (A & B & -> & -> & C). 
      assert (S1 : exists l1, side (p0 :: A) l1 /\ hi = map inl l1).
      { destruct H1 as [(E & Ea & ->)| ->]; [|exists (p0 :: A); split; [right; split; [reflexivity|discriminate]|reflexivity]].
        exists []. destruct A; [|discriminate]. split; [left; split; [congruence|reflexivity]|reflexivity]. }
      destruct S1 as (l1 & S1 & ->). apply groups_iff in F1.
      assert (S2 : exists l2, side (B ++ [pl]) l2 /\ ending l2 ns2).
      { destruct H2 as [(E & Eb & ->)| ->].
        - exists []. inversion F2; subst ns2. split; [|constructor]. left. split; [|reflexivity]. destruct C as [C|m C C']; [|discriminate]. destruct B; [|discriminate]. cbn [app]. congruence.
        - exists (B ++ [pl]). split; [right; split; [reflexivity|apply NE]|]. apply (parts_iff _ (b ++ [l])); [apply NE|now apply conv_parts|exact F2]. }
      destruct S2 as (l2 & S2 & E2). exists A, B, l1, l2, ns1, ns2, k. repeat split; assumption.
  - assert (Cv : forall mid' ns, ending (mid' ++ [pl]) ns -> exists q l, conv mid' pl q l).
    { intros mid' ns E. destruct (existsb (Ascii.eqb ".") pl) eqn:D; [|eexists _, _; now apply cv_plain]. apply ending_split in E as [E|(l0 & s & m & ns0 & El & _ & K & _)].
      - apply f2_app_l' in E as (x & y & _ & _ & F2). inversion F2; subst. match goal with G : group pl _ |- _ => apply group_nodot in G; congruence end.
      - apply app_inj_tail in El as [_ <-]. eexists _, _. apply (cv_dotted mid' pl m D K). }
    intros [(ns & E & L & ->)|(A & B & l1 & l2 & ns1 & ns2 & k & -> & S1 & S2 & F1 & E2 & L & K & ->)].
    + destruct (Cv (p0 :: mid) ns E) as (q0 & l0 & C0). assert (C : exists q l, conv mid pl q l) by (destruct C0 as [D|m D D']; eexists _, _; [now apply cv_plain|now apply (cv_dotted mid pl m)]).
      clear C0. destruct C as (q & l & C). exists q, l. split; [exact C|]. apply v6_parts_iff. left. exists ns. split; [|split; [exact L|reflexivity]].
      apply (parts_iff (p0 :: mid ++ [pl])); [discriminate| |exact E]. destruct C as [D|m D D'].
      * replace (inl p0 :: map inl mid ++ [inl pl]) with (map (@inl str N) ((p0 :: mid) ++ [pl])) by (cbn [map app]; now rewrite map_app). apply ps_plain. now rewrite last_last.
      * rewrite <- app_assoc. exact (ps_dotted (p0 :: mid) pl m D D').
    + assert (C : exists b l, conv B pl b l /\ (l = inl [] /\ b = [] /\ l2 = [] \/ Forall2 hx (b ++ [l]) ns2)).
      { destruct S2 as [[E ->]|[<- _]].
        - exists [], (inl []). destruct B as [|? [|]]; [|discriminate|discriminate]. cbn [app] in E. assert (pl = []) by congruence. subst pl. split; [now apply cv_plain|]. left. repeat split.
        - destruct (Cv B ns2 E2) as (b & l & C). exists b, l. split; [exact C|]. right. apply (parts_iff (B ++ [pl])); [apply NE|now apply conv_parts|exact E2]. }
      destruct C as (b & l & C & Hl). exists (map inl A ++ inl [] :: b), l. split; [now apply conv_join|]. apply v6_parts_iff. right.
      assert (S1' : inl p0 = inl [] :> part /\ map inl A = [] :> list part /\ map inl l1 = [] :> list part \/ map inl l1 = inl p0 :: map inl A :> list part).
      { destruct S1 as [[E ->]|[<- _]]; [|now right]. left. assert (p0 = [] /\ A = []) as [-> ->] by (split; congruence). repeat split. }
      destruct Hl as [(-> & -> & ->)|F2].
      * exists (map inl A), [], (map inl l1), [], ns1, ns2, k. split; [reflexivity|]. split; [exact S1'|]. split; [left; repeat split|].
        split; [now apply groups_iff|]. split; [inversion E2; constructor|repeat split; assumption].
      * exists (map inl A), b, (map inl l1), (b ++ [l]), ns1, ns2, k. split; [reflexivity|]. split; [exact S1'|]. split; [now right|].
        split; [now apply groups_iff|]. split; [exact F2|repeat split; assumption].
Qed.
