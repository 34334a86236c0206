(** * MatchFacts: proofs about the match variable functions. *)
From Verif Require Import PyBase DictFacts StrFacts MatchFuncs SpecMatch.
Local Open Scope string_scope.
Local Open Scope list_scope.

(** ** unrange *)
Fixpoint upieces (l : list uitem) : list (list str) :=
  match l with
  | [] => [[]]
  | Single s :: t => match upieces t with p :: ps => (s :: p) :: ps | [] => [] end
  | Range a b :: t => match upieces t with p :: ps => [a] :: (b :: p) :: ps | [] => [] end
  end.
Lemma upieces_ne l : upieces l <> [].
Proof. destruct l as [|[s|a b] l]; simpl; [congruence|..]; destruct (upieces l) as [|p ps] eqn:E; try congruence.
  all: exfalso; clear -E; revert E; induction l as [|[s'|a' b'] l IH]; simpl; try congruence;
    destruct (upieces l) as [|q qs]; try congruence; auto. Qed.

Lemma upieces_cons i t p ps : upieces t = p :: ps ->
  upieces (i :: t) = match i with Single s => (s :: p) :: ps | Range a b => [a] :: (b :: p) :: ps end.
Proof. intros H. destruct i; simpl; now rewrite H. Qed.

Lemma upieces_text rc jc l : l <> [] ->
  ufield rc jc l = join [rc] (map (join [jc]) (upieces l)).
Proof.
  unfold ufield. induction l as [|i l IH]; [congruence|]. intros _.
  destruct l as [|j l].
  - destruct i as [s|a b]; reflexivity.
  - cbn [map]. rewrite join_cons. change (utext rc j :: map (utext rc) l) with (map (utext rc) (j :: l)).
    rewrite IH by congruence.
    destruct (upieces (j :: l)) as [|p ps] eqn:E; [now apply upieces_ne in E|].
    assert (Hp : p <> []).
    { destruct j as [s|a b]; simpl in E; destruct (upieces l) as [|q qs]; congruence. }
    rewrite (upieces_cons i (j :: l) p ps E). destruct i as [s|a b].
    + cbn [map utext]. destruct p as [|x p]; [congruence|].
      rewrite join_cons. destruct ps as [|p' ps]; simpl map.
      * rewrite !join_one. reflexivity.
      * rewrite !join_cons, <- !app_assoc. reflexivity.
    + cbn [map utext]. rewrite join_one. destruct p as [|x p]; [congruence|].
      destruct ps as [|p' ps]; simpl map.
      * rewrite join_cons, !join_one, join_cons, <- !app_assoc. reflexivity.
      * rewrite !join_cons, <- !app_assoc. reflexivity.
Qed.

Lemma upieces_wf rc jc l : l <> [] -> Forall (uwf rc jc) l ->
  Forall (fun p => p <> [] /\ Forall (piece rc jc) p) (upieces l).
Proof.
  intros Hne H. induction l as [|i l IH]; [congruence|]. inversion H as [|? ? Hi Hl]; subst.
  destruct l as [|j l].
  - destruct i as [s|a b]; simpl in *; repeat constructor; try congruence; tauto || apply Hi.
  - assert (IH' := IH ltac:(congruence) Hl). clear IH.
    destruct (upieces (j :: l)) as [|p ps] eqn:E; [now apply upieces_ne in E|].
    rewrite (upieces_cons i (j :: l) p ps E). inversion IH' as [|? ? [Hp1 Hp2] Hps]; subst. destruct i as [s|a b].
    + constructor; [|exact Hps]. split; [congruence|]. constructor; [exact Hi|exact Hp2].
    + destruct Hi as (Ha & Hb & _). constructor; [split; [congruence|now constructor]|].
      constructor; [|exact Hps]. split; [congruence|]. now constructor.
Qed.

Lemma piece_split rc jc p : p <> [] -> Forall (piece rc jc) p -> filter ne (split [jc] (join [jc] p)) = p.
Proof.
  intros Hne H. rewrite split_join; [|exact Hne|].
  - clear Hne. induction H as [|x p Hx Hp IH]; [reflexivity|]. simpl.
    destruct Hx as [Hx _]. destruct x; [congruence|]. simpl. now rewrite IH.
  - eapply Forall_impl; [|exact H]. intros s Hs. apply Hs.
Qed.

Lemma join_lacks rc jc p : rc <> jc -> Forall (piece rc jc) p -> lacks rc (join [jc] p).
Proof.
  intros Hn H. induction H as [|x p Hx Hp IH]; [easy|].
  destruct Hx as (_ & Hx & _). destruct p as [|y p]; [exact Hx|]. rewrite join_cons. intros Hi.
  apply in_app_or in Hi as [Hi|Hi]; [now apply Hx|]. simpl in Hi. destruct Hi as [Hi|Hi]; [congruence|]. now apply IH.
Qed.

Lemma opt_last_app {A} (l : list A) x : opt_last (l ++ [x]) = Some x.
Proof. unfold opt_last. rewrite rev_app_distr. reflexivity. Qed.

Lemma zrange_mid a b : tl (map str_of_Z (zrange a b)) = map str_of_Z (between_z a b).
Proof.
  unfold zrange, between_z. destruct (Z.to_nat (b - a)) as [|n] eqn:E.
  - replace (Z.to_nat (b - a - 1)) with 0%nat by lia. reflexivity.
  - replace (Z.to_nat (b - a - 1)) with n by lia. simpl. rewrite <- seq_shift, !map_map.
    apply map_ext. intros i. f_equal. lia.
Qed.

Lemma loop_pieces rc jc l : Forall (uwf rc jc) l -> forall R p ps, upieces l = p :: ps ->
  Forall (fun p => p <> [] /\ Forall (piece rc jc) p) ps ->
  unrange_loop [jc] (map (join [jc]) ps) (R ++ p) = Ok (Some (R ++ flat_map uexpand l)).
Proof.
  intros H. induction H as [|i l Hi Hl IH]; intros R p ps E Hps.
  - injection E as <- <-. reflexivity.
  - destruct i as [s|a b]; simpl in E; destruct (upieces l) as [|q qs] eqn:El; try discriminate;
      injection E as <- <-.
    + change (R ++ s :: q) with (R ++ [s] ++ q). rewrite app_assoc.
      rewrite (IH (R ++ [s]) q qs eq_refl Hps). simpl. now rewrite <- app_assoc.
    + destruct Hi as (Ha & Hb & [x Hx] & [y Hy]).
      inversion Hps as [|? ? [Hq1 Hq2] Hqs]; subst.
      cbn [map unrange_loop]. rewrite opt_last_app.
      rewrite piece_split with (rc := rc) by (congruence || assumption).
      unfold int_of. rewrite Hx. cbn [rbind]. rewrite Hy, zrange_mid.
      replace ((R ++ [a]) ++ map str_of_Z (between_z x y) ++ b :: q)
        with ((R ++ a :: map str_of_Z (between_z x y) ++ [b]) ++ q)
        by (rewrite <- !app_assoc; simpl; rewrite <- !app_assoc; reflexivity).
      rewrite (IH _ q qs eq_refl Hqs). cbn [flat_map uexpand]. rewrite Hx, Hy. rewrite <- !app_assoc. cbn [app]. now rewrite <- !app_assoc.
Qed.

Theorem unrange_expands rc jc l : rc <> jc -> l <> [] -> Forall (uwf rc jc) l ->
  f_unrange (ufield rc jc l) [rc] [jc] = Ok (VStr (join [jc] (flat_map uexpand l)), FNone).
Proof.
  intros Hn Hne H. unfold f_unrange.
  pose proof (upieces_wf rc jc l Hne H) as Hw.
  destruct (upieces l) as [|p ps] eqn:E; [now apply upieces_ne in E|].
  inversion Hw as [|? ? [Hp1 Hp2] Hps]; subst.
  assert (HS : split [rc] (ufield rc jc l) = map (join [jc]) (upieces l)).
  { rewrite upieces_text by exact Hne. apply split_join.
    - rewrite E. discriminate.
    - rewrite E. apply Forall_forall. intros s Hs. apply in_map_iff in Hs as (q & <- & Hq).
      rewrite Forall_forall in Hw. apply join_lacks; [exact Hn|]. now apply Hw. }
  destruct (containsb [rc] (ufield rc jc l)) eqn:Ec.
  - rewrite HS, E. cbn [map unrange_loop opt_last rev].
    rewrite piece_split with (rc := rc) by assumption.
    change p with ([] ++ p) at 1. rewrite (loop_pieces rc jc l H [] p ps E Hps). reflexivity.
  - apply containsb_char_false in Ec. rewrite split_lacks in HS by exact Ec.
    rewrite E in HS. destruct ps as [|p2 ps]; [|discriminate].
    pose proof (loop_pieces rc jc l H [] p [] E ltac:(constructor)) as HL. simpl in HL.
    injection HL as <-. injection HS as <-. reflexivity.
Qed.

Lemma upto_mid x y : (x < y)%Z -> upto x y = x :: between_z x y ++ [y].
Proof.
  intros H. unfold upto, between_z. replace (Z.to_nat (y - x + 1)) with (S (S (Z.to_nat (y - x - 1)))) by lia.
  rewrite seq_S. simpl. rewrite map_app. f_equal; [lia|]. rewrite <- seq_shift, map_map. f_equal.
  - apply map_ext. intros i. lia.
  - simpl. f_equal. lia.
Qed.
Lemma uexpand_upto x y : (x < y)%Z -> uexpand (Range (str_of_Z x) (str_of_Z y)) = map str_of_Z (upto x y).
Proof. intros H. unfold uexpand. rewrite !py_int_str, upto_mid by exact H. simpl. now rewrite map_app. Qed.

(** data without the range character is returned as it is *)
Theorem unrange_no_range data rc jc : ~ In rc data -> f_unrange data [rc] jc = Ok (VStr data, FNone).
Proof. intros H. unfold f_unrange. apply containsb_char_false in H. now rewrite H. Qed.

(** ** mac_eui *)
Lemma mac_digits_eq t : mac_digits t = lower (filter (fun c => negb (mac_delim c)) t).
Proof.
  unfold mac_digits. f_equal. apply filter_ext. intros c. unfold mac_delim. cbn [existsb].
  now rewrite orb_false_r, orb_assoc.
Qed.

Lemma mac_text_pairs d m : mac_text d = Some m -> length d = 12 /\ m = join $":" (pairs d).
Proof.
  unfold mac_text. repeat (destruct d as [|? d]; [discriminate|]). destruct d; [|discriminate].
  intros H; injection H as <-. split; reflexivity.
Qed.
Theorem mac_canonical t m : mac_text (mac_digits t) = Some m -> isalnum (mac_digits t) = true ->
  f_mac_eui (VStr t) = Ok (VStr m, FNone).
Proof.
  intros Hm Ha. unfold f_mac_eui. cbn [py_str]. rewrite <- mac_digits_eq, Ha.
  apply mac_text_pairs in Hm as [Hl ->]. rewrite Hl. reflexivity.
Qed.

Lemma all_alnum_cases : forall c, is_alnum c = true -> mac_delim c = false.
Proof. intros [[] [] [] [] [] [] [] []]; vm_compute; congruence. Qed.
Lemma lower_alnum c : is_alnum c = true -> is_alnum (lower_c c) = true.
Proof. revert c. intros [[] [] [] [] [] [] [] []]; vm_compute; congruence. Qed.
Lemma lower_idem c : lower_c (lower_c c) = lower_c c.
Proof. revert c. intros [[] [] [] [] [] [] [] []]; vm_compute; reflexivity. Qed.

Lemma isalnum_forall s : isalnum s = true <-> s <> [] /\ Forall (fun c => is_alnum c = true) s.
Proof.
  destruct s as [|c s]; [simpl; split; [discriminate|intros [H _]; congruence]|].
  unfold isalnum, all_chars. rewrite forallb_forall, Forall_forall. split; [intros H; split; [congruence|exact H]|tauto].
Qed.

(** dropping the colons of the paired text gives the text back *)
Lemma filter_pairs n : forall s, length s <= n -> Forall (fun c => is_alnum c = true) s ->
  filter (fun c => negb (mac_delim c)) (join $":" (pairs s)) = s.
Proof.
  induction n as [|n IH]; intros s Hn H; [destruct s; [reflexivity|simpl in Hn; lia]|].
  destruct s as [|a [|b s]]; [reflexivity| |].
  - inversion H as [|? ? Ha _]; subst. simpl. now rewrite (all_alnum_cases a Ha).
  - inversion H as [|? ? Ha H1]; subst. inversion H1 as [|? ? Hb H2]; subst.
    cbn [pairs]. destruct (pairs s) as [|y ys] eqn:E.
    + destruct s as [|c [|d s]]; try discriminate. simpl.
      now rewrite (all_alnum_cases a Ha), (all_alnum_cases b Hb).
    + rewrite join_cons, <- E. rewrite filter_app. cbn [filter].
      rewrite (all_alnum_cases a Ha), (all_alnum_cases b Hb). cbn [negb].
      rewrite filter_app, IH; [reflexivity| simpl in Hn; lia | exact H2].
Qed.

Theorem mac_idempotent v r : f_mac_eui v = Ok (r, FNone) -> f_mac_eui r = Ok (r, FNone).
Proof.
  unfold f_mac_eui. intros H.
  set (mac := lower (filter (fun c => negb (mac_delim c)) (py_str v))) in *.
  destruct (isalnum mac) eqn:E.
  - set (m := if Nat.eqb (length mac) 12 then mac else mac ++ repeat "0"%char (12 - length mac)) in *.
    assert (Hr : r = VStr (join $":" (pairs m))) by congruence. clear H. subst r. cbn [py_str].
    apply isalnum_forall in E as [Hne Hall].
    assert (Hm : Forall (fun c => is_alnum c = true) m).
    { subst m. destruct (Nat.eqb (length mac) 12); [exact Hall|]. apply Forall_app. split; [exact Hall|].
      apply Forall_forall. intros c Hc. apply repeat_spec in Hc. subst c. reflexivity. }
    assert (Hlen : length m = 12 \/ 12 - length m = 0).
    { subst m. destruct (Nat.eqb_spec (length mac) 12) as [H12|H12]; [now left|].
      rewrite app_length, repeat_length. lia. }
    rewrite (filter_pairs (length m) m (le_n _) Hm).
    assert (Hlow : lower m = m).
    { assert (lower mac = mac) as Hl1.
      { subst mac. unfold lower. rewrite map_map. apply map_ext. apply lower_idem. }
      subst m. destruct (Nat.eqb (length mac) 12); [exact Hl1|].
      unfold lower in *. rewrite map_app, Hl1. f_equal. generalize (12 - length mac) as n.
      induction n as [|n IHn]; [reflexivity|]. cbn [repeat map]. now rewrite IHn. }
    rewrite Hlow.
    assert (isalnum m = true) as ->.
    { apply isalnum_forall. split; [|exact Hm]. subst m.
      destruct (Nat.eqb (length mac) 12); [exact Hne|]. destruct mac; [congruence|discriminate]. }
    destruct (Nat.eqb_spec (length m) 12) as [H12|H12]; [reflexivity|].
    destruct Hlen as [Hlen|Hlen]; [congruence|]. rewrite Hlen. simpl. now rewrite app_nil_r.
  - assert (Hr : r = v) by congruence. subst r. fold mac. rewrite E. reflexivity.
Qed.

Theorem mac_other v : isalnum (mac_digits (py_str v)) = false -> f_mac_eui v = Ok (v, FNone).
Proof. intros H. unfold f_mac_eui. now rewrite <- mac_digits_eq, H. Qed.

(** ** to_cidr *)
Lemma ones_S_even p w : ones (S w) (Zpos (xO p)) = ones w (Zpos p).
Proof.
  unfold ones. cbn [seq filter Z.of_nat]. rewrite Z.testbit_0_r || idtac.
  change (Z.testbit (Z.pos p~0) 0) with false. cbn iota.
  rewrite <- seq_shift. generalize (seq 0 w) as l. induction l as [|i l IH]; [reflexivity|].
  cbn [map filter]. assert (Z.testbit (Z.pos p~0) (Z.of_nat (S i)) = Z.testbit (Z.pos p) (Z.of_nat i)) as ->.
  { change (Z.pos p~0) with (2 * Z.pos p)%Z. rewrite Nat2Z.inj_succ. apply Z.testbit_even_succ. lia. }
  destruct (Z.testbit (Z.pos p) (Z.of_nat i)); simpl; now rewrite IH.
Qed.
Lemma ones_S_odd p w : ones (S w) (Zpos (xI p)) = S (ones w (Zpos p)).
Proof.
  unfold ones. cbn [seq filter Z.of_nat].
  change (Z.testbit (Z.pos p~1) 0) with true. cbn iota. cbn [length]. f_equal.
  rewrite <- seq_shift. generalize (seq 0 w) as l. induction l as [|i l IH]; [reflexivity|].
  cbn [map filter]. assert (Z.testbit (Z.pos p~1) (Z.of_nat (S i)) = Z.testbit (Z.pos p) (Z.of_nat i)) as ->.
  { change (Z.pos p~1) with (2 * Z.pos p + 1)%Z. rewrite Nat2Z.inj_succ. apply Z.testbit_odd_succ. lia. }
  destruct (Z.testbit (Z.pos p) (Z.of_nat i)); simpl; now rewrite IH.
Qed.
Lemma ones_zero w : ones w 0 = 0.
Proof.
  unfold ones. generalize (seq 0 w) as l. induction l as [|i l IH]; [reflexivity|].
  cbn [filter]. rewrite Z.testbit_0_l. exact IH.
Qed.
(** the count of 1 characters in bin(z) is the number of one bits *)
Lemma bin_ones_ones w : forall z, (0 <= z < 2 ^ Z.of_nat w)%Z -> bin_ones z = ones w z.
Proof.
  induction w as [|w IH]; intros z Hz.
  - simpl in Hz. assert (z = 0%Z) as -> by lia. reflexivity.
  - destruct z as [|p|p]; [now rewrite ones_zero| |lia].
    rewrite Nat2Z.inj_succ, Z.pow_succ_r in Hz by lia.
    destruct p as [p|p|].
    + rewrite ones_S_odd, <- IH by lia. reflexivity.
    + rewrite ones_S_even, <- IH by lia. reflexivity.
    + unfold ones. cbn [seq filter Z.of_nat]. change (Z.testbit 1 0) with true. cbn iota. cbn [length bin_ones pos_ones].
      f_equal. rewrite <- seq_shift. generalize (seq 0 w) as l. induction l as [|i l IHl]; [reflexivity|].
      cbn [map filter]. rewrite Nat2Z.inj_succ. change 1%Z with (2 * 0 + 1)%Z.
      rewrite Z.testbit_odd_succ by lia. rewrite Z.testbit_0_l. exact IHl.
Qed.

Lemma dec_not_dot s : Forall (fun c => is_dec c = true) s -> lacks "."%char s.
Proof. intros H Hi. rewrite Forall_forall in H. specialize (H _ Hi). discriminate. Qed.
Lemma str_of_Z_nodot z : lacks "."%char (str_of_Z z).
Proof.
  destruct z as [|p|p]; unfold str_of_Z; try (apply dec_not_dot, str_of_N_dec).
  intros [Hi|Hi]; [discriminate|]. revert Hi. apply dec_not_dot, str_of_N_dec.
Qed.

Lemma sum_ones_str zs : Forall (fun z => (0 <= z < 256)%Z) zs ->
  sum_ones (map str_of_Z zs) = Some (fold_right Nat.add 0 (map (ones 8) zs)).
Proof.
  induction 1 as [|z zs Hz Hzs IH]; [reflexivity|]. cbn [map sum_ones fold_right].
  rewrite py_int_str, IH, (bin_ones_ones 8) by exact Hz. reflexivity.
Qed.
(** the bits of each byte are counted *)
Theorem to_cidr_counts zs : zs <> [] -> Forall (fun z => (0 <= z < 256)%Z) zs ->
  f_to_cidr (VStr (join $"." (map str_of_Z zs)))
  = Ok (VInt (Z.of_nat (fold_right Nat.add 0 (map (ones 8) zs))), FNone).
Proof.
  intros Hne H. unfold f_to_cidr. change ($".") with ["."%char]. rewrite split_join.
  - now rewrite sum_ones_str.
  - destruct zs; [congruence|discriminate].
  - apply Forall_forall. intros s Hs. apply in_map_iff in Hs as (z & <- & _). apply str_of_Z_nodot.
Qed.
Theorem to_cidr_mask n : n <= 32 -> f_to_cidr (VStr (mask_text n)) = Ok (VInt (Z.of_nat n), FNone).
Proof. intros H. do 33 (destruct n as [|n]; [vm_compute; reflexivity|]). lia. Qed.
Lemma sum_ones_none l : sum_ones l = None <-> exists x, In x l /\ py_int x = None.
Proof.
  induction l as [|x l IH]; simpl; [split; [discriminate|intros (x & [] & _)]|].
  destruct (py_int x) as [z|] eqn:E.
  - destruct (sum_ones l) as [n|].
    + split; [discriminate|]. intros (y & [<-|Hy] & H); [congruence|].
      assert (Some n = None) by (apply IH; eauto). discriminate.
    + split; [|reflexivity]. intros _. destruct (proj1 IH eq_refl) as (y & Hy & H). eauto.
  - split; [|reflexivity]. intros _. exists x. auto.
Qed.
Theorem to_cidr_other s x : In x (split $"." s) -> py_int x = None -> f_to_cidr (VStr s) = Ok (VStr s, FNone).
Proof.
  intros Hi Hx. unfold f_to_cidr. assert (sum_ones (split $"." s) = None) as ->; [|reflexivity].
  apply sum_ones_none. eauto.
Qed.

(** ** item *)
Lemma item_cases {A} (l : list A) i : l <> [] ->
  exists j, py_pos (length l)
     (if (Z.leb 0 i && Z.leb i (Z.of_nat (length l) - 1))%bool then i
      else if (Z.leb 0 i && Z.leb (Z.of_nat (length l) - 1) i)%bool then (-1)%Z
      else if (Z.leb i 0 && Z.leb (Z.abs i) (Z.of_nat (length l) - 1))%bool then i else 0%Z) = Some j
  /\ j = clamp (length l) i /\ j < length l.
Proof.
  intros Hne. assert (0 < length l) as Hl by (destruct l; [congruence|simpl; lia]).
  exists (clamp (length l) i). unfold clamp, py_pos.
  repeat match goal with |- context [Z.leb ?a ?b] => destruct (Z.leb_spec a b) end; cbn [andb] in *;
  repeat match goal with |- context [Z.ltb ?a ?b] => destruct (Z.ltb_spec a b) end;
  repeat match goal with |- context [Z.leb ?a ?b] => destruct (Z.leb_spec a b) end;
  try lia; (split; [f_equal; lia | split; [reflexivity|lia]]).
Qed.

Theorem item_list l i : l <> [] ->
  exists x, nth_error l (clamp (length l) i) = Some x /\ f_item (VList l) i = Ok (x, FNone).
Proof.
  intros Hne. destruct (item_cases l i Hne) as (j & Hj & -> & Hlt).
  destruct (nth_error l (clamp (length l) i)) as [x|] eqn:E; [|apply nth_error_None in E; lia].
  exists x. split; [reflexivity|]. unfold f_item. cbn [py_len rbind].
  destruct (_ && _)%bool eqn:E1; [cbn [py_index]; rewrite Hj, E; reflexivity|].
  destruct (Z.leb 0 i && Z.leb (Z.of_nat (length l) - 1) i)%bool eqn:E2; [cbn [py_index]; rewrite Hj, E; reflexivity|].
  destruct (Z.leb i 0 && Z.leb (Z.abs i) (Z.of_nat (length l) - 1))%bool eqn:E3; [cbn [py_index]; rewrite Hj, E; reflexivity|].
  destruct (Z.leb i 0 && Z.leb (Z.of_nat (length l)) (Z.abs i))%bool eqn:E4; [cbn [py_index]; rewrite Hj, E; reflexivity|].
  exfalso. rewrite !andb_false_iff, !Z.leb_gt in *. lia.
Qed.
Theorem item_str s i : s <> [] ->
  exists c, nth_error s (clamp (length s) i) = Some c /\ f_item (VStr s) i = Ok (VStr [c], FNone).
Proof.
  intros Hne. destruct (item_cases s i Hne) as (j & Hj & -> & Hlt).
  destruct (nth_error s (clamp (length s) i)) as [x|] eqn:E; [|apply nth_error_None in E; lia].
  exists x. split; [reflexivity|]. unfold f_item. cbn [py_len rbind].
  destruct (_ && _)%bool eqn:E1; [cbn [py_index]; rewrite Hj, E; reflexivity|].
  destruct (Z.leb 0 i && Z.leb (Z.of_nat (length s) - 1) i)%bool eqn:E2; [cbn [py_index]; rewrite Hj, E; reflexivity|].
  destruct (Z.leb i 0 && Z.leb (Z.abs i) (Z.of_nat (length s) - 1))%bool eqn:E3; [cbn [py_index]; rewrite Hj, E; reflexivity|].
  destruct (Z.leb i 0 && Z.leb (Z.of_nat (length s)) (Z.abs i))%bool eqn:E4; [cbn [py_index]; rewrite Hj, E; reflexivity|].
  exfalso. rewrite !andb_false_iff, !Z.leb_gt in *. lia.
Qed.

(** ** truncate *)
Theorem truncate_words words n : words <> [] -> Forall (fun w => ~ In space w) words ->
  f_truncate (VStr (join $" " words)) (Z.of_nat n) = Ok (VStr (join $" " (firstn n words)), FNone).
Proof.
  intros Hne H. unfold f_truncate. change ($" ") with [space]. rewrite split_join by assumption.
  unfold slice_to. destruct (Z.ltb_spec (Z.of_nat n) 0); [lia|]. rewrite Nat2Z.id.
  destruct (Z.leb_spec (Z.of_nat n) (Z.of_nat (length words))) as [Hle|Hgt]; [reflexivity|].
  rewrite firstn_all2 by lia. reflexivity.
Qed.

(** ** numeric tests *)
Definition digits (s : str) : Prop := s <> [] /\ Forall (fun c => is_dec c = true) s.

Lemma gt_digits s t : digits (strip s) -> digits (strip t) ->
  f_greaterthan (VStr s) (VStr t)
  = Ok (VStr s, FBool (N.ltb (digits_val (strip t) 0) (digits_val (strip s) 0))).
Proof.
  intros [H1 H2] [H3 H4]. unfold f_greaterthan. cbn [py_strip rbind].
  rewrite !isdigit_dec by assumption. unfold int_of. rewrite !py_int_dec by assumption. cbn [rbind].
  assert (Z.ltb (Z.of_N (digits_val (strip t) 0)) (Z.of_N (digits_val (strip s) 0))
          = N.ltb (digits_val (strip t) 0) (digits_val (strip s) 0)) as ->.
  { destruct (N.ltb_spec (digits_val (strip t) 0) (digits_val (strip s) 0)); [apply Z.ltb_lt|apply Z.ltb_ge]; lia. }
  now destruct (N.ltb _ _).
Qed.
Lemma lt_digits s t : digits (strip s) -> digits (strip t) ->
  f_lessthan (VStr s) (VStr t)
  = Ok (VStr s, FBool (N.ltb (digits_val (strip s) 0) (digits_val (strip t) 0))).
Proof.
  intros [H1 H2] [H3 H4]. unfold f_lessthan. cbn [py_strip rbind].
  rewrite !isdigit_dec by assumption. unfold int_of. rewrite !py_int_dec by assumption. cbn [rbind].
  assert (Z.ltb (Z.of_N (digits_val (strip s) 0)) (Z.of_N (digits_val (strip t) 0))
          = N.ltb (digits_val (strip s) 0) (digits_val (strip t) 0)) as ->.
  { destruct (N.ltb_spec (digits_val (strip s) 0) (digits_val (strip t) 0)); [apply Z.ltb_lt|apply Z.ltb_ge]; lia. }
  now destruct (N.ltb _ _).
Qed.
Lemma cmp_nondigits s t : isdigit (strip s) = false \/ isdigit (strip t) = false ->
  f_greaterthan (VStr s) (VStr t) = Ok (VStr s, FBool false) /\ f_lessthan (VStr s) (VStr t) = Ok (VStr s, FBool false).
Proof.
  intros H. unfold f_greaterthan, f_lessthan. cbn [py_strip rbind].
  destruct (isdigit (strip s)); [|auto]. destruct (isdigit (strip t)); [destruct H; discriminate|auto].
Qed.

Lemma isdigit_notdigit s : f_isdigit (VStr s) = Ok (VStr s, FBool (isdigit (strip s)))
  /\ f_notdigit (VStr s) = Ok (VStr s, FBool (negb (isdigit (strip s)))).
Proof. unfold f_isdigit, f_notdigit. cbn [py_strip rbind]. destruct (isdigit (strip s)); auto. Qed.

Lemma contains_any s ps : f_contains (VStr s) ps = Ok (VStr s, FBool (existsb (fun p => containsb p s) ps)).
Proof.
  induction ps as [|p ps IH]; [reflexivity|]. cbn [f_contains py_in rbind existsb].
  destruct (containsb p s); [reflexivity|]. exact IH.
Qed.
Lemma exclude_not s p : f_exclude (VStr s) p = Ok (VStr s, FBool (negb (containsb p s))).
Proof. unfold f_exclude. cbn [py_in rbind]. destruct (containsb p s); reflexivity. Qed.

(** ** replaceall *)
Lemma rfold_ok {A S} (f : S -> A -> res S) (g : S -> A -> S) l : (forall s x, In x l -> f s x = Ok (g s x)) ->
  forall s, rfold f l s = Ok (fold_left g l s).
Proof.
  induction l as [|x l IH]; intros H s; [reflexivity|]. simpl. rewrite H by now left. cbn [rbind].
  apply IH. intros; apply H; now right.
Qed.

Lemma fold_left_flat_map {A B C} (f : C -> B -> C) (g : A -> list B) l : forall c,
  fold_left f (flat_map g l) c = fold_left (fun c x => fold_left f (g x) c) l c.
Proof. induction l as [|x l IH]; intros c; [reflexivity|]. simpl. rewrite fold_left_app. apply IH. Qed.
Lemma fold_left_map' {A B C} (f : C -> B -> C) (g : A -> B) l : forall c,
  fold_left f (map g l) c = fold_left (fun c x => f c (g x)) l c.
Proof. induction l as [|x l IH]; intros c; [reflexivity|]. simpl. apply IH. Qed.

Definition nonempty_strings (v : val) : Prop := Forall (fun s => s <> []) (old_strings v).
(** variables used as a dictionary have string keys *)
Definition string_keys (d : dict) : Prop := Forall (fun kv => exists s, fst kv = KS s) d.

Lemma replace_list_spec n l s : Forall (fun o => o <> []) (old_strings (VList l)) ->
  replace_list (KS n) l s = Ok (fold_left (fun s o => substitute s (o, n)) (old_strings (VList l)) s).
Proof.
  unfold replace_list, old_strings. revert s. induction l as [|x l IH]; intros s H; [reflexivity|].
  simpl in *. destruct x as [| | |o| | |]; simpl in *; try (apply IH; exact H).
  inversion H as [|? ? Ho Hl]; subst. rewrite replace_split by exact Ho. apply IH, Hl.
Qed.

Definition arg_ok (vars : dict) (a : str) : Prop :=
  match dget vars (KS a) with
  | None => a <> []
  | Some (VDict d) => string_keys d /\ Forall (fun kv => nonempty_strings (snd kv)) d
  | Some (VStr _) => False
  | Some v => nonempty_strings v
  end.

Lemma replace_dict_spec d s : string_keys d -> Forall (fun kv => nonempty_strings (snd kv)) d ->
  replace_dict d s = Ok (fold_left substitute
     (flat_map (fun kv => match fst kv with KS k => map (fun o => (o, k)) (old_strings (snd kv)) | _ => [] end) d) s).
Proof.
  unfold replace_dict. revert s. induction d as [|[k v] d IH]; intros s H1 H2; [reflexivity|].
  inversion H1 as [|? ? [n Hn] H1']; subst. inversion H2 as [|? ? Hv H2']; subst. simpl in Hn, Hv. subst k.
  cbn [rfold fst snd flat_map]. rewrite fold_left_app, fold_left_map'.
  destruct v as [| | |o|l| |]; try (cbn [rbind old_strings flat_map map fold_left app]; apply IH; assumption).
  - cbn [key_str rbind]. unfold nonempty_strings in Hv. simpl in Hv. inversion Hv as [|? ? Ho _]; subst.
    rewrite replace_split by exact Ho. apply IH; assumption.
  - rewrite replace_list_spec by exact Hv. cbn [rbind]. apply IH; assumption.
Qed.

Lemma replace_arg_spec vars n s a : arg_ok vars a ->
  replace_arg vars n s a = Ok (fold_left substitute (replacements vars n a) s).
Proof.
  unfold arg_ok, replace_arg, replacements. destruct (dget vars (KS a)) as [v|] eqn:E.
  - intros H. destruct v as [| | |o|l|d|]; try reflexivity.
    + contradiction.
    + rewrite replace_list_spec by exact H. now rewrite fold_left_map'.
    + destruct H. now apply replace_dict_spec.
  - intros H. rewrite replace_split by exact H. reflexivity.
Qed.

Theorem replaceall_spec vars data new olds : olds <> [] -> Forall (arg_ok vars) olds ->
  f_replaceall vars data (new :: olds)
  = Ok (VStr (fold_left substitute (flat_map (replacements vars new) olds) data), FNone).
Proof.
  intros Hne H. unfold f_replaceall. destruct olds as [|o olds]; [congruence|].
  rewrite (rfold_ok _ (fun s a => fold_left substitute (replacements vars new a) s)).
  - cbn [rbind]. now rewrite fold_left_flat_map.
  - intros s x Hx. apply replace_arg_spec. rewrite Forall_forall in H. now apply H.
Qed.
Theorem replaceall_one vars data old : arg_ok vars old ->
  f_replaceall vars data [old] = Ok (VStr (fold_left substitute (replacements vars [] old) data), FNone).
Proof. intros H. unfold f_replaceall. cbn [rfold]. rewrite replace_arg_spec by exact H. reflexivity. Qed.

(** ** lookups *)
Lemma walk_follow path : forall t v, follow path t = Some v -> walk_get path t = Ok v.
Proof.
  induction path as [|k path IH]; intros t v H; [simpl in *; congruence|].
  simpl in *. destruct t as [| | | | |d|]; try discriminate. destruct (dget d (KS k)) as [x|]; [auto|discriminate].
Qed.

Lemma subscript_key table data k : key_of data = Ok k -> subscript (VDict table) data = Ok (dget table k).
Proof. intros H. destruct data; try discriminate H; injection H as <-; reflexivity. Qed.
Theorem lookup_found lookups ts rs name table data k v add :
  follow (dotted name) lookups = Some (VDict table) -> key_of data = Ok k -> dget table k = Some v ->
  f_lookup lookups ts rs data (ByName name) add
  = Ok (match add with Some f => (data, FNew [(f, v)]) | None => (v, FNone) end).
Proof.
  intros H1 H2 H3. unfold f_lookup, lookup_source. cbn [rbind]. rewrite (walk_follow _ _ _ H1). cbn [rbind].
  rewrite (subscript_key _ _ _ H2). cbn [rbind]. rewrite H3. unfold answer. destruct add; reflexivity.
Qed.
Theorem lookup_missing lookups ts rs name table data k add :
  follow (dotted name) lookups = Some (VDict table) -> key_of data = Ok k -> dget table k = None ->
  f_lookup lookups ts rs data (ByName name) add = Ok (data, FNone).
Proof.
  intros H1 H2 H3. unfold f_lookup, lookup_source. cbn [rbind]. rewrite (walk_follow _ _ _ H1). cbn [rbind].
  rewrite (subscript_key _ _ _ H2). cbn [rbind]. now rewrite H3.
Qed.

Lemma walk_empty path : walk_get path (VDict []) = Ok (VDict []).
Proof. induction path as [|k path IH]; [reflexivity|]. simpl. exact IH. Qed.

(** the table's path does not exist (a key is missing on the way) *)
Fixpoint no_table (path : list str) (v : val) : Prop :=
  match path with
  | [] => False
  | k :: t => match v with
              | VDict d => match dget d (KS k) with Some x => no_table t x | None => True end
              | _ => False
              end
  end.
Lemma walk_no_table path : forall v, no_table path v -> walk_get path v = Ok (VDict []).
Proof.
  induction path as [|k path IH]; intros v H; [contradiction|]. simpl in *.
  destruct v as [| | | | |d|]; try contradiction. destruct (dget d (KS k)); [now apply IH|apply walk_empty].
Qed.
Theorem lookup_no_table lookups ts rs name data k add :
  no_table (dotted name) lookups -> key_of data = Ok k ->
  f_lookup lookups ts rs data (ByName name) add = Ok (data, FNone).
Proof.
  intros H1 H2. unfold f_lookup, lookup_source. cbn [rbind]. rewrite (walk_no_table _ _ H1). cbn [rbind].
  rewrite (subscript_key _ _ _ H2). reflexivity.
Qed.

(** with add_field the matched value is never changed, whatever the source *)
Theorem lookup_add_field_keeps lookups ts rs data src f r fl :
  f_lookup lookups ts rs data src (Some f) = Ok (r, fl) -> r = data.
Proof.
  unfold f_lookup. destruct (lookup_source lookups ts rs src) as [o|e]; cbn [rbind]; [|discriminate].
  destruct o as [[t path]|]; [|congruence]. destruct (walk_get path t) as [table|e]; cbn [rbind]; [|discriminate].
  destruct (subscript table data) as [found|e]; cbn [rbind]; [|discriminate].
  destruct found; cbn [answer]; congruence.
Qed.

(** rlookup: the first key, in table order, that occurs in the data *)
Definition skeys (d : dict) : Prop := Forall (fun kv => exists s, fst kv = KS s) d.
Definition occurs (data : str) (k : key) : bool := match k with KS s => containsb s data | _ => false end.
Lemma rfind_spec data d : skeys d -> rfind data d = Ok (option_map snd (find (fun kv => occurs data (fst kv)) d)).
Proof.
  induction d as [|[k v] d IH]; intros H; [reflexivity|]. inversion H as [|? ? [s Hs] H']; subst.
  simpl in Hs. subst k. cbn [rfind find fst occurs]. destruct (containsb s data); [reflexivity|]. now apply IH.
Qed.
Theorem rlookup_spec lookups data name d add :
  follow (dotted name) lookups = Some (VDict d) -> skeys d ->
  f_rlookup lookups data name add =
  Ok (match option_map snd (find (fun kv => occurs data (fst kv)) d) with
      | None | Some VNone => (VStr data, FNone)
      | Some v => match add with Some f => (VStr data, FNew [(f, v)]) | None => (v, FNone) end
      end).
Proof.
  intros H1 H2. unfold f_rlookup. rewrite (walk_follow _ _ _ H1). cbn [rbind]. rewrite rfind_spec by exact H2.
  cbn [rbind]. destruct (find _ d) as [[k v]|]; cbn [option_map snd]; [|reflexivity].
  unfold answer. destruct v, add; reflexivity.
Qed.

Section G.
Variable fnm : str -> str -> bool.
Definition patterns_of (v : val) : list str := match pattern_list v with Ok l => l | Raise _ => [] end.
Definition good_table (d : dict) : Prop := Forall (fun kv => exists l, pattern_list (snd kv) = Ok l) d.
Definition hit (data : str) (kv : key * val) : bool := existsb (fnm data) (patterns_of (snd kv)).

Lemma gpv_first_spec data d : good_table d ->
  gpv_first fnm data d = Ok (match find (hit data) d with Some kv => [fst kv] | None => [] end).
Proof.
  induction d as [|[k v] d IH]; intros H; [reflexivity|]. inversion H as [|? ? [l Hl] H']; subst. simpl in Hl.
  cbn [gpv_first find]. rewrite Hl. cbn [rbind]. unfold hit at 1, patterns_of at 1. cbn [snd]. rewrite Hl.
  destruct (existsb (fnm data) l); [reflexivity|]. now apply IH.
Qed.
Lemma gpv_all_spec data d : good_table d ->
  gpv_all fnm data d
  = Ok (flat_map (fun kv => repeat (fst kv) (length (filter (fnm data) (patterns_of (snd kv))))) d).
Proof.
  induction d as [|[k v] d IH]; intros H; [reflexivity|]. inversion H as [|? ? [l Hl] H']; subst. simpl in Hl.
  cbn [gpv_all flat_map]. rewrite Hl. cbn [rbind]. rewrite IH by exact H'. cbn [rbind].
  unfold patterns_of at 2. cbn [snd fst]. rewrite Hl. do 2 f_equal.
  induction (filter (fnm data) l) as [|x y IHy]; [reflexivity|]. simpl. now rewrite IHy.
Qed.
Definition gpv_result (data : str) (multi : bool) (d : dict) : list key :=
  if multi then flat_map (fun kv => repeat (fst kv) (length (filter (fnm data) (patterns_of (snd kv))))) d
  else match find (hit data) d with Some kv => [fst kv] | None => [] end.
Theorem gpvlookup_spec lookups env data name add record multi d :
  follow (dotted name) lookups = Some (VDict d) -> good_table d ->
  f_gpvlookup fnm lookups env data name add record multi =
  let ks := gpv_result data multi d in
  let found := VList (map key_val ks) in
  Ok (match record with
      | Some r => {| m_vars := dset (m_vars env) r found; m_gvars := dset (m_gvars env) r found |}
      | None => env end,
      match ks with
      | [] => (VStr data, FNone)
      | _ => match add with Some f => (VStr data, FNew [(f, found)]) | None => (found, FNone) end
      end).
Proof.
  intros H1 H2. unfold f_gpvlookup. rewrite (walk_follow _ _ _ H1). cbn [rbind].
  assert ((if multi then gpv_all fnm data d else gpv_first fnm data d) = Ok (gpv_result data multi d)) as ->.
  { unfold gpv_result. destruct multi; [now apply gpv_all_spec|now apply gpv_first_spec]. }
  cbn [rbind]. destruct (gpv_result data multi d); [reflexivity|]. unfold answer. destruct add; reflexivity.
Qed.
End G.

(** ** count *)
Lemma dget_incr d k z : dget d k = Some (VInt z) -> incr d k = Ok (dset d k (VInt (z + 1))).
Proof. intros H. unfold incr. now rewrite H. Qed.
