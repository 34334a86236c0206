(** * MatchExact: when exactly the match functions fail or leave the data alone. *)
From Verif Require Import PyBase DictFacts StrFacts MatchFuncs SpecMatch MatchFacts.
Local Open Scope string_scope.
Local Open Scope list_scope.

(** ** unrange *)
Lemma filter_ne l : filter ne l = filter nonempty l.
Proof. reflexivity. Qed.

Lemma unrange_raises_from jc items : forall result a s e, result = a ++ [s] ->
  unrange_loop jc items result = Raise e <-> range_fails ((a ++ [s]) :: map (fun p => filter nonempty (split jc p)) items) e.
Proof.
  induction items as [|item rest IH]; intros result a s e ->.
  - simpl. split; [discriminate|]. intros H. inversion H.
  - cbn [unrange_loop map]. rewrite opt_last_app. unfold int_of. destruct (py_int s) as [x|] eqn:Es; cbn [rbind].
    + rewrite filter_ne. destruct (filter nonempty (split jc item)) as [|h b] eqn:Ef.
      * split.
        -- intros [= <-]. eapply rf_no_end; eassumption.
        -- intros H. inversion H; subst; apply app_inj_tail in H0 as [-> ->]; congruence.
      * destruct (py_int h) as [y|] eqn:Eh.
        -- destruct (exists_last (l := h :: b)) as (b' & l & Hl); [discriminate|].
           rewrite (IH _ ((a ++ [s]) ++ tl (map str_of_Z (zrange x y)) ++ b') l e) by (rewrite Hl, !app_assoc; reflexivity).
           assert (K : forall u, range_fails ((u ++ [l]) :: map (fun p => filter nonempty (split jc p)) rest) e <->
                       range_fails ((h :: b) :: map (fun p => filter nonempty (split jc p)) rest) e).
           { intros u. rewrite Hl. split; intros H; inversion H; subst; apply app_inj_tail in H0 as [-> ->];
               [eapply rf_no_number|eapply rf_no_end|eapply rf_later|eapply rf_no_number|eapply rf_no_end|eapply rf_later]; eassumption. }
           rewrite K. split; intros H; [eapply rf_later; eassumption|].
           inversion H; subst; apply app_inj_tail in H0 as [-> ->]; try congruence.
        -- split; [discriminate|]. intros H. inversion H; subst; apply app_inj_tail in H0 as [-> ->]; congruence.
    + split.
      * intros [= <-]. now apply rf_no_number.
      * intros H. inversion H; subst; apply app_inj_tail in H0 as [-> ->]; congruence.
Qed.
Lemma unrange_loop_raises jc items e :
  unrange_loop jc items [] = Raise e <-> range_fails (from_first (map (fun p => filter nonempty (split jc p)) items)) e.
Proof.
  induction items as [|item rest IH]; [simpl; split; [discriminate|intros H; inversion H]|].
  cbn [unrange_loop map opt_last rev]. rewrite filter_ne.
  destruct (filter nonempty (split jc item)) as [|h b] eqn:Ef; [exact IH|].
  destruct (exists_last (l := h :: b)) as (b' & l & Hl); [discriminate|].
  cbn [from_first]. rewrite Hl. apply unrange_raises_from. reflexivity.
Qed.
Theorem unrange_raises data rc jc e : rc <> [] -> jc <> [] ->
  f_unrange data rc jc = Raise e <-> containsb rc data = true /\ range_fails (from_first (pieces rc jc data)) e.
Proof.
  intros Hr Hj. unfold f_unrange, pieces. destruct (containsb rc data).
  - replace (negb (ne rc && ne jc)) with false by (destruct rc, jc; congruence || reflexivity). rewrite <- (unrange_loop_raises jc (split rc data) e). destruct (unrange_loop jc (split rc data) []) as [[l|]|x]; cbn [rbind].
    + split; [discriminate|intros [_ H]; discriminate].
    + split; [discriminate|intros [_ H]; discriminate].
    + intuition congruence.
  - split; [discriminate|intros [H _]; discriminate].
Qed.

(** ** mac_eui *)
Lemma mac_filter t : lower (filter (fun c => negb (mac_delim c)) t) = mac_digits t.
Proof.
  unfold mac_digits. apply (Logic.f_equal lower). apply filter_ext. intros c. unfold mac_delim. simpl. now rewrite orb_false_r, orb_assoc.
Qed.
Lemma pairs_in s : pairs s = in_pairs s.
Proof. reflexivity. Qed.
Theorem mac_exact v : f_mac_eui v =
  Ok (if isalnum (mac_digits (py_str v)) then VStr (mac_form (mac_digits (py_str v))) else v, FNone).
Proof.
  unfold f_mac_eui, mac_form. rewrite mac_filter. destruct (isalnum (mac_digits (py_str v))); [|reflexivity].
  set (d := mac_digits (py_str v)).
  assert (K : (if Nat.eqb (length d) 12 then d else d ++ repeat "0"%char (12 - length d)) = d ++ repeat "0"%char (12 - length d)).
  { destruct (Nat.eqb (length d) 12) eqn:E; [|reflexivity]. apply Nat.eqb_eq in E. rewrite E. cbn. now rewrite app_nil_r. }
  rewrite K. reflexivity.
Qed.
Theorem mac_unchanged t : f_mac_eui (VStr t) = Ok (VStr t, FNone) <->
  isalnum (mac_digits t) = false \/ t = mac_form (mac_digits t).
Proof.
  rewrite mac_exact. cbn [py_str]. destruct (isalnum (mac_digits t)).
  - split; [intros [= H]; right; symmetry; exact H|]. intros [H|H]; [discriminate|]. now rewrite <- H.
  - split; [left; reflexivity|]. intros _. reflexivity.
Qed.

(** ** to_cidr *)
Lemma pos_ones_bits p : forall w, (Zpos p < 2 ^ Z.of_nat w)%Z -> pos_ones p = ones w (Zpos p).
Proof.
  assert (S1 : forall w f, length (filter f (seq 0 (S w))) = (if f 0 then 1 else 0) + length (filter (fun i => f (S i)) (seq 0 w))).
  { intros w f. cbn [seq filter]. rewrite <- seq_shift. transitivity ((if f 0 then 1 else 0) + length (filter f (map S (seq 0 w)))).
    { destruct (f 0); reflexivity. }
    assert (forall l, length (filter f (map S l)) = length (filter (fun i => f (S i)) l)) as ->.
    { induction l as [|x l IH]; [reflexivity|]. simpl. destruct (f (S x)); simpl; now rewrite IH. }
    reflexivity. }
  assert (D : forall z b w, length (filter (fun i => Z.testbit (2 * z + Z.b2z b) (Z.of_nat (S i))) (seq 0 w)) = ones w z).
  { intros z b w. unfold ones. assert (forall l, filter (fun i => Z.testbit (2 * z + Z.b2z b) (Z.of_nat (S i))) l = filter (fun i => Z.testbit z (Z.of_nat i)) l) as ->; [|reflexivity].
    intros l. apply filter_ext. intros i. rewrite Nat2Z.inj_succ. now rewrite Z.testbit_succ_r by lia. }
  induction p as [p IH|p IH|]; intros w Hw.
  - destruct w as [|w]; [simpl in Hw; lia|]. unfold ones at 1. rewrite S1. cbn [pos_ones].
    rewrite Nat2Z.inj_succ, Z.pow_succ_r in Hw by lia. rewrite (IH w) by lia.
    change (Zpos p~1) with (2 * Zpos p + Z.b2z true)%Z. rewrite D. rewrite Z.testbit_0_r. reflexivity.
  - destruct w as [|w]; [simpl in Hw; lia|]. unfold ones at 1. rewrite S1. cbn [pos_ones].
    rewrite Nat2Z.inj_succ, Z.pow_succ_r in Hw by lia. rewrite (IH w) by lia.
    change (Zpos p~0) with (2 * Zpos p + Z.b2z false)%Z. rewrite D. rewrite Z.testbit_0_r. reflexivity.
  - destruct w as [|w]; [simpl in Hw; lia|]. unfold ones. rewrite S1.
    change 1%Z with (2 * 0 + Z.b2z true)%Z at 2. rewrite D. cbn [pos_ones].
    assert (forall w, ones w 0 = 0) as ->; [|reflexivity].
    intros k. unfold ones. assert (forall l, filter (fun i => Z.testbit 0 (Z.of_nat i)) l = []) as ->; [|reflexivity].
    induction l as [|x l IHl]; [reflexivity|]. simpl. now rewrite Z.bits_0.
Qed.
Lemma ones_0 w : ones w 0 = 0.
Proof.
  unfold ones. assert (forall l, filter (fun i => Z.testbit 0 (Z.of_nat i)) l = []) as ->; [|reflexivity].
  induction l as [|x l IHl]; [reflexivity|]. simpl. now rewrite Z.bits_0.
Qed.
Lemma bin_ones_bits z w : (Z.abs z < 2 ^ Z.of_nat w)%Z -> bin_ones z = ones w (Z.abs z).
Proof. destruct z as [|p|p]; cbn [Z.abs bin_ones]; intros H; [now rewrite ones_0|now apply pos_ones_bits|now apply pos_ones_bits]. Qed.
Lemma sum_ones_exact : forall l, sum_ones l = None <-> exists x, In x l /\ py_int x = None.
Proof.
  induction l as [|x l IH]; [simpl; split; [discriminate|intros (x & [] & _)]|].
  cbn [sum_ones]. destruct (py_int x) as [z|] eqn:E.
  - destruct (sum_ones l) as [n|].
    + split; [discriminate|]. intros (y & [<-|Hy] & Hn); [congruence|].
      destruct IH as [_ IH]. discriminate IH. eauto.
    + split; [|reflexivity]. intros _. destruct IH as [IH _]. destruct (IH eq_refl) as (y & Hy & Hn). exists y. simpl. tauto.
  - split; [|reflexivity]. intros _. exists x. simpl. tauto.
Qed.
Lemma sum_ones_value w : forall l zs, Forall2 (fun x z => py_int x = Some z /\ (Z.abs z < 2 ^ Z.of_nat w)%Z) l zs ->
  sum_ones l = Some (fold_right Nat.add 0 (map (fun z => ones w (Z.abs z)) zs)).
Proof.
  induction 1 as [|x z l zs [Hx Hz] H IH]; [reflexivity|]. cbn [sum_ones map fold_right]. rewrite Hx, IH.
  now rewrite (bin_ones_bits z w Hz).
Qed.
Theorem to_cidr_unchanged s : f_to_cidr (VStr s) = Ok (VStr s, FNone) <-> exists x, In x (split $"." s) /\ py_int x = None.
Proof.
  rewrite <- sum_ones_exact. unfold f_to_cidr. destruct (sum_ones (split $"." s)); split; try discriminate; reflexivity.
Qed.
Theorem to_cidr_value s zs w : Forall2 (fun x z => py_int x = Some z /\ (Z.abs z < 2 ^ Z.of_nat w)%Z) (split $"." s) zs ->
  f_to_cidr (VStr s) = Ok (VInt (Z.of_nat (fold_right Nat.add 0 (map (fun z => ones w (Z.abs z)) zs))), FNone).
Proof. intros H. unfold f_to_cidr. now rewrite (sum_ones_value w _ _ H). Qed.
Theorem to_cidr_not_text v : (forall s, v <> VStr s) -> f_to_cidr v = Ok (v, FNone).
Proof. destruct v; intros H; try reflexivity. exfalso. now apply (H s). Qed.

(** ** item *)
Theorem item_empty_list i : f_item (VList []) i = Raise IndexError.
Proof.
  unfold f_item. cbn [py_len length rbind]. change (Z.of_nat 0) with 0%Z.
  destruct (Z.leb 0 i && Z.leb i (0 - 1))%bool eqn:E1.
  { apply andb_true_iff in E1 as [A B]. apply Z.leb_le in A, B. lia. }
  destruct (Z.leb 0 i && Z.leb (0 - 1) i)%bool eqn:E2; [reflexivity|].
  destruct (Z.leb i 0 && Z.leb (Z.abs i) (0 - 1))%bool eqn:E3.
  { apply andb_true_iff in E3 as [A B]. apply Z.leb_le in A, B. lia. }
  destruct (Z.leb i 0 && Z.leb 0 (Z.abs i))%bool eqn:E4; [reflexivity|].
  apply andb_false_iff in E2, E4. rewrite !Z.leb_gt in E2, E4. lia.
Qed.
Theorem item_empty_str i : f_item (VStr []) i = Raise IndexError.
Proof.
  unfold f_item. cbn [py_len length rbind]. change (Z.of_nat 0) with 0%Z.
  destruct (Z.leb 0 i && Z.leb i (0 - 1))%bool eqn:E1.
  { apply andb_true_iff in E1 as [A B]. apply Z.leb_le in A, B. lia. }
  destruct (Z.leb 0 i && Z.leb (0 - 1) i)%bool eqn:E2; [reflexivity|].
  destruct (Z.leb i 0 && Z.leb (Z.abs i) (0 - 1))%bool eqn:E3.
  { apply andb_true_iff in E3 as [A B]. apply Z.leb_le in A, B. lia. }
  destruct (Z.leb i 0 && Z.leb 0 (Z.abs i))%bool eqn:E4; [reflexivity|].
  apply andb_false_iff in E2, E4. rewrite !Z.leb_gt in E2, E4. lia.
Qed.
Theorem item_dict d i : f_item (VDict d) i =
  match dget d (KI (item_key (length d) i)) with Some x => Ok (x, FNone) | None => Raise KeyError end.
Proof.
  unfold f_item, item_key. cbn [py_len rbind]. set (n := Z.of_nat (length d)).
  assert (Hn : (0 <= n)%Z) by (unfold n; lia).
  assert (Hd : n = 0%Z -> d = []) by (unfold n; destruct d; [reflexivity|simpl; lia]).
  cbn [py_index].
  repeat match goal with |- context [(Z.leb ?a ?b && Z.leb ?c ?e)%bool] =>
    let E := fresh "E" in destruct (Z.leb a b && Z.leb c e)%bool eqn:E;
    [apply andb_true_iff in E as [?L ?L]; apply Z.leb_le in L, L0|apply andb_false_iff in E; rewrite !Z.leb_gt in E] end;
  repeat match goal with
    | |- context [Z.ltb ?a ?b] => let E := fresh "E" in destruct (Z.ltb a b) eqn:E; [apply Z.ltb_lt in E|apply Z.ltb_ge in E]
    | |- context [Z.leb ?a ?b] => let E := fresh "E" in destruct (Z.leb a b) eqn:E; [apply Z.leb_le in E|apply Z.leb_gt in E]
  end; try lia;
  try (match goal with |- context [dget d (KI ?k)] => destruct (dget d (KI k)) eqn:?; reflexivity end);
  try (rewrite (Hd ltac:(lia)); reflexivity);
  try (assert (i = (-1))%Z as -> by lia; destruct (dget d (KI (-1))); reflexivity);
  try (assert (i = 0)%Z as -> by lia; destruct (dget d (KI 0)); reflexivity).
Qed.
Theorem item_other v i : (forall s, v <> VStr s) -> (forall l, v <> VList l) -> (forall d, v <> VDict d) -> f_item v i = Raise TypeError.
Proof. destruct v; intros H1 H2 H3; try reflexivity; exfalso; [eapply H1|eapply H2|eapply H3]; reflexivity. Qed.

(** ** comparisons *)
Lemma digitc_facts c : is_digitc c = true -> is_space c = false /\ Ascii.eqb c "-" = false /\ Ascii.eqb c "+" = false /\ Ascii.eqb c "_" = false.
Proof. destruct c as [[] [] [] [] [] [] [] []]; intros H; try discriminate H; repeat split; reflexivity. Qed.
Lemma int_digits_digitc u : forall b, Forall (fun c => is_digitc c = true) u -> ~ Forall (fun c => is_dec c = true) u -> int_digits u b = None.
Proof.
  induction u as [|c u IH]; intros b Hd Hn; [exfalso; apply Hn; constructor|].
  inversion Hd as [|? ? Hc Hu]; subst. cbn [int_digits]. destruct (is_dec c) eqn:Ec.
  - rewrite IH; [reflexivity|exact Hu|]. intros K. apply Hn. now constructor.
  - destruct (digitc_facts c Hc) as (_ & _ & _ & ->). reflexivity.
Qed.
Lemma isdigit_all u : isdigit u = true <-> u <> [] /\ Forall (fun c => is_digitc c = true) u.
Proof.
  unfold isdigit. destruct u as [|c u]; [split; [discriminate|intros [H _]; congruence]|].
  assert (K : forall l, all_chars is_digitc l = true <-> Forall (fun c => is_digitc c = true) l).
  { induction l as [|x l IH]; [split; [constructor|reflexivity]|]. cbn [all_chars forallb]. unfold all_chars in *. cbn [forallb]. rewrite andb_true_iff, IH. split; [intros [A B]; now constructor|intros H; inversion H; auto]. }
  rewrite K. split; [intros H; split; [discriminate|exact H]|intros [_ H]; exact H].
Qed.
Lemma dec_decidable u : Forall (fun c => is_dec c = true) u \/ ~ Forall (fun c => is_dec c = true) u.
Proof.
  destruct (forallb is_dec u) eqn:E; [left|right]; [apply Forall_forall; now apply forallb_forall|].
  intros H. rewrite Forall_forall in H. apply forallb_forall in H. congruence.
Qed.
Lemma py_int_isdigit u : isdigit u = true -> py_int u = None <-> ~ Forall (fun c => is_dec c = true) u.
Proof.
  intros H. apply isdigit_all in H as [Hne Hd]. split.
  - intros Hn Ha. rewrite py_int_dec in Hn by assumption. discriminate.
  - intros Hn. unfold py_int. rewrite strip_id.
    2: { eapply Forall_impl; [|exact Hd]. intros c Hc. now apply digitc_facts. }
    destruct u as [|c u]; [congruence|]. inversion Hd as [|? ? Hc Hu]; subst.
    destruct (digitc_facts c Hc) as (_ & -> & -> & _). now rewrite int_digits_digitc.
Qed.
Theorem compare_raises s t :
  (odd_digits s t -> f_greaterthan (VStr s) (VStr t) = Raise ValueError /\ f_lessthan (VStr s) (VStr t) = Raise ValueError) /\
  (~ odd_digits s t -> exists b c, f_greaterthan (VStr s) (VStr t) = Ok (VStr s, FBool b) /\ f_lessthan (VStr s) (VStr t) = Ok (VStr s, FBool c)).
Proof.
  unfold odd_digits, f_greaterthan, f_lessthan. cbn [py_strip rbind].
  destruct (isdigit (strip s)) eqn:Es; [|split; [intros (H & _); discriminate|eauto]].
  destruct (isdigit (strip t)) eqn:Et; [|split; [intros (_ & H & _); discriminate|eauto]].
  pose proof (py_int_isdigit _ Es) as Hs. pose proof (py_int_isdigit _ Et) as Ht. unfold int_of.
  destruct (dec_decidable (strip s)) as [Ds|Ds], (dec_decidable (strip t)) as [Dt|Dt].
  - destruct (py_int (strip s)) as [x|]; [|exfalso; destruct Hs as [Hs _]; now apply Hs].
    destruct (py_int (strip t)) as [y|]; [|exfalso; destruct Ht as [Ht _]; now apply Ht]. cbn [rbind]. split; [tauto|].
    intros _. exists (Z.ltb y x), (Z.ltb x y). destruct (Z.ltb y x), (Z.ltb x y); split; reflexivity.
  - destruct Hs as [Hs _]. destruct (py_int (strip s)) as [x|]; [|exfalso; now apply Hs].
    destruct Ht as [_ Ht]. rewrite (Ht Dt). cbn [rbind]. split; [split; reflexivity|tauto].
  - destruct Hs as [_ Hs]. rewrite (Hs Ds). cbn [rbind]. split; [split; reflexivity|tauto].
  - destruct Hs as [_ Hs]. rewrite (Hs Ds). cbn [rbind]. split; [split; reflexivity|tauto].
Qed.
(** data or argument that is not text *)
Theorem compare_not_text data v : (forall s, data <> VStr s) ->
  f_greaterthan data v = Raise AttributeError /\ f_lessthan data v = Raise AttributeError.
Proof. intros H. destruct data; try (split; reflexivity). exfalso. now apply (H s). Qed.

(** ** names that are global variables, string variables *)
Theorem append_global env name s : dget (m_vars env) (KS name) = None ->
  f_append env (VStr s) name = Ok (VStr (s ++ name), FNone) /\ f_prepend env (VStr s) name = Ok (VStr (name ++ s), FNone).
Proof. intros H. unfold f_append, f_prepend, get_or_self. rewrite H. split; reflexivity. Qed.
Theorem replaceall_string_variable vars data name old new : dget vars (KS name) = Some (VStr old) ->
  f_replaceall vars data [name] = Ok (VStr data, FNone) /\ f_replaceall vars data [new; name] = Ok (VStr data, FNone).
Proof. intros H. unfold f_replaceall, replace_arg. cbn [rfold rbind]. rewrite H. split; reflexivity. Qed.
