(** * IpFacts2: the texts of addresses, interfaces and networks, and the tests on them (C136). *)
From Coq Require Import Lia.
From Verif Require Import PyBase DictFacts StrFacts MatchFuncs Attributes LexFacts Ip SpecVariable SpecOutcome SpecIp IpFacts.
Local Open Scope string_scope.
Local Open Scope list_scope.
Local Open Scope N_scope.
Notation width := SpecIp.width.
Notation chr := Ascii.ascii.

(** ** IPv6 texts *)
Lemma pieces_ends (l : list str) : (2 <= length l)%nat -> exists p m q, l = p :: m ++ [q].
Proof. destruct l as [|p l]; [cbn; lia|]. intros H. destruct (@exists_last _ l) as (m & q & ->); [intros ->; cbn in H; lia|]. eauto. Qed.
Lemma v6_int_of p0 m pl s : split $":" s = p0 :: m ++ [pl] -> m <> [] -> v6_int s = v6_of p0 m pl.
Proof.
  intros H Hm. unfold v6_int, v6_of. rewrite H. rewrite removelast_last, last_last.
  replace (length (m ++ [pl]) <? 2)%nat with false; [reflexivity|]. symmetry. apply PeanoNat.Nat.ltb_ge. rewrite app_length. destruct m; [congruence|cbn; lia].
Qed.
Lemma groups_lack l ns x : Forall2 group l ns -> hexval x = None -> Forall (lacks x) l.
Proof. intros H Hx. induction H; constructor; [eapply group_lacks; eassumption|assumption]. Qed.
Lemma ending_lack l ns x : ending l ns -> hexval x = None -> x <> "."%char -> Forall (lacks x) l.
Proof.
  intros H Hx Hd. assert (Dx : is_dec x = false) by (unfold hexval in Hx; destruct (is_dec x); [discriminate|reflexivity]).
  induction H; constructor; [eapply ipv4_lacks; eassumption|constructor|eapply group_lacks; eassumption|assumption].
Qed.
Lemma side_of l : exists x, side x l /\ x <> [] /\ join $":" x = join $":" l /\ (forall P : str -> Prop, P [] -> Forall P l -> Forall P x).
Proof.
  destruct l as [|p l].
  - exists [[]]. split; [now left|]. split; [discriminate|]. split; [reflexivity|]. intros P H _. now constructor.
  - exists (p :: l). split; [right; split; [reflexivity|discriminate]|]. split; [discriminate|]. split; [reflexivity|]. auto.
Qed.
Lemma side_join x l : side x l -> join $":" x = join $":" l.
Proof. intros [[-> ->]|[-> _]]; reflexivity. Qed.
Lemma ending_len l ns : ending l ns -> (length ns <= S (length l))%nat.
Proof. induction 1; cbn; lia. Qed.
Lemma v6_int_iff s n : v6_int s = Some n <-> ipv6 s n.
Proof.
  split.
  - intros H. pose proof (join_split $":" s ltac:(discriminate)) as J. assert (L : (3 <= length (split $":" s))%nat).
    { unfold v6_int in H. destruct (split $":" s) as [|p l]; [discriminate|]. destruct (length l <? 2)%nat eqn:E; [discriminate|]. apply PeanoNat.Nat.ltb_ge in E. cbn [length]. lia. }
    destruct (pieces_ends (split $":" s) ltac:(lia)) as (p0 & m & pl & E). rewrite E in L, J. cbn [length] in L. rewrite app_length in L. cbn [length] in L.
    assert (Hm : m <> []) by (intros ->; cbn in L; lia). rewrite (v6_int_of _ _ _ _ E Hm) in H.
    apply v6_of_iff in H as [(ns & F & Ln & ->)|(A & B & l1 & l2 & ns1 & ns2 & k & -> & S1 & S2 & F1 & F2 & Ln & K & ->)].
    + rewrite <- J. now apply ip6_full.
    + replace (p0 :: (A ++ [] :: B) ++ [pl]) with ((p0 :: A) ++ [] :: (B ++ [pl])) in J by (cbn [app]; now rewrite <- app_assoc).
      assert (NB : B ++ [pl] <> []) by (destruct B; discriminate).
      rewrite join_app in J by discriminate. destruct (B ++ [pl]) as [|y Y] eqn:EB; [congruence|]. rewrite join_cons in J. rewrite (side_join _ _ S1), (side_join _ _ S2) in J.
      rewrite <- J. change (join $":" l1 ++ $":" ++ [] ++ $":" ++ join $":" l2) with (join (t_ ":") l1 ++ t_ "::" ++ join (t_ ":") l2). now apply (ip6_short l1 ns1 l2 ns2 k).
  - intros H. destruct H as [l ns F Ln|l1 ns1 l2 ns2 k F1 F2 Ln K].
    + pose proof (ending_len _ _ F) as Le. assert (E : split $":" (join $":" l) = l).
      { apply split_join; [intros ->; cbn in *; lia|]. refine (ending_lack _ _ _ F _ _); [reflexivity|discriminate]. }
      destruct (pieces_ends l ltac:(lia)) as (p0 & m & pl & ->). change (t_ ":") with ($":").
      assert (Hm : m <> []) by (intros ->; cbn in Le; lia). rewrite (v6_int_of _ _ _ _ E Hm). apply v6_of_iff. left. exists ns. auto.
    + destruct (side_of l1) as (X & S1 & NX & J1 & P1). destruct (side_of l2) as (Y & S2 & NY & J2 & P2).
      assert (E : split $":" (join $":" (X ++ [] :: Y)) = X ++ [] :: Y).
      { apply split_join; [destruct X; discriminate|]. apply Forall_app. split; [|constructor; [intros []|]].
        - apply P1; [intros []|]. exact (groups_lack _ _ ":"%char F1 eq_refl).
        - apply P2; [intros []|]. refine (ending_lack _ _ ":"%char F2 eq_refl _). discriminate. }
      rewrite join_app in E by (assumption || discriminate). destruct Y as [|y Y]; [congruence|]. rewrite join_cons in E.
      replace (join $":" X ++ $":" ++ [] ++ $":" ++ join $":" (y :: Y)) with (join (t_ ":") l1 ++ t_ "::" ++ join (t_ ":") l2) in E by (rewrite J1, J2; reflexivity).
      destruct X as [|p0 A]; [congruence|]. destruct (exists_last NY) as (B & pl & EY). rewrite EY in *. cbn [app] in E.
      assert (EM : A ++ [] :: (B ++ [pl]) = (A ++ [] :: B) ++ [pl]) by now rewrite <- app_assoc. rewrite EM in E.
      rewrite (v6_int_of _ _ _ _ E) by (destruct A; discriminate). apply v6_of_iff. right. exists A, B, l1, l2, ns1, ns2, k. repeat split; assumption.
Qed.
Lemma join_in c sep l : In c (join sep l) -> In c sep \/ exists p, In p l /\ In c p.
Proof.
  induction l as [|p [|q l] IH]; [intros []|cbn [join]; intros H; right; exists p; split; [now left|exact H]|].
  rewrite join_cons. intros H. apply in_app_or in H as [H|H]; [right; exists p; split; [now left|exact H]|]. apply in_app_or in H as [H|H]; [now left|].
  destruct (IH H) as [K|(x & K1 & K2)]; [now left|]. right. exists x. split; [now right|exact K2].
Qed.
Lemma join_lacks c sep l : lacks c sep -> Forall (lacks c) l -> lacks c (join sep l).
Proof. intros H1 H2 H. apply join_in in H as [H|(p & Hp & H)]; [exact (H1 H)|]. rewrite Forall_forall in H2. exact (H2 p Hp H). Qed.
Lemma ipv6_lacks s n x : ipv6 s n -> hexval x = None -> x <> "."%char -> x <> ":"%char -> lacks x s.
Proof.
  intros H Hx Hd Hc. assert (C : lacks x (t_ ":")) by (intros [K|[]]; congruence). destruct H as [l ns F Ln|l1 ns1 l2 ns2 k F1 F2 Ln K].
  - apply join_lacks; [exact C|]. eapply ending_lack; eassumption.
  - intros H. apply in_app_or in H as [H|H]; [revert H; apply join_lacks; [exact C|eapply groups_lack; eassumption]|].
    apply in_app_or in H as [H|H]; [destruct H as [H|[H|[]]]; congruence|]. revert H. apply join_lacks; [exact C|eapply ending_lack; eassumption].
Qed.
Lemma ipv6_colon s n : ipv6 s n -> In ":"%char s.
Proof.
  intros [l ns F Ln|l1 ns1 l2 ns2 k F1 F2 Ln K].
  - pose proof (ending_len _ _ F). destruct l as [|p [|q l]]; [cbn in *; lia|cbn in *; lia|]. rewrite join_cons. apply in_or_app. right. now left.
  - apply in_or_app. right. now left.
Qed.

(** ** addresses *)
Lemma v6_addr_iff s n : v6_addr s = Some n <-> address true s n.
Proof.
  unfold v6_addr. split.
  - destruct (existsb (Ascii.eqb "/") s) eqn:E; [discriminate|]. assert (L : lacks "/"%char s).
    { intros K. apply eq_true_false_abs in E; [exact E|]. apply existsb_exists. exists "/"%char. split; [exact K|]. reflexivity. }
    pose proof (join_split $"%" s ltac:(discriminate)) as J. pose proof (split_pieces "%"%char s) as P. change ["%"%char] with ($"%") in P.
    destruct (split $"%" s) as [|a [|z [|? ?]]]; try discriminate.
    + intros H. apply v6_int_iff in H. cbn [join] in J. subst a. now apply ad_v6.
    + destruct z as [|c z]; [discriminate|]. cbn [is_nil]. intros H. apply v6_int_iff in H. cbn [join] in J. rewrite <- J. inversion P as [|? ? _ P']; subst. inversion P'; subst.
      apply (ad_scope a n (c :: z)); [exact H|discriminate|assumption|]. intros K. apply L. apply in_or_app. right. apply in_or_app. now right.
  - intros H. inversion H as [? ? H0|? ? H0|a ? z H0 Hz Hp Hs]; subst.
    + assert (L1 : lacks "/"%char s) by (apply (ipv6_lacks _ _ _ H0); [reflexivity|discriminate|discriminate]).
      assert (L2 : lacks "%"%char s) by (apply (ipv6_lacks _ _ _ H0); [reflexivity|discriminate|discriminate]).
      replace (existsb (Ascii.eqb "/") s) with false.
      * change ($"%") with ["%"%char]. rewrite (split_lacks _ _ L2). now apply v6_int_iff.
      * symmetry. apply not_true_is_false. intros K. apply existsb_exists in K as (x & K & E). apply Ascii.eqb_eq in E. subst x. exact (L1 K).
    + assert (L1 : lacks "/"%char a) by (apply (ipv6_lacks _ _ _ H0); [reflexivity|discriminate|discriminate]).
      assert (L2 : lacks "%"%char a) by (apply (ipv6_lacks _ _ _ H0); [reflexivity|discriminate|discriminate]).
      replace (existsb (Ascii.eqb "/") (a ++ t_ "%" ++ z)) with false.
      * change ($"%") with ["%"%char]. change (a ++ t_ "%" ++ z) with (a ++ "%"%char :: z). rewrite (split_app _ _ _ L2), (split_lacks _ _ Hp). destruct z; [congruence|]. cbn [is_nil]. now apply v6_int_iff.
      * symmetry. apply not_true_is_false. intros K. apply existsb_exists in K as (x & K & E). apply Ascii.eqb_eq in E. subst x. apply in_app_or in K as [K|[K|K]]; [exact (L1 K)|discriminate|exact (Hs K)].
Qed.
Lemma read_addr_iff six s n : read_addr six s = Some n <-> address six s n.
Proof.
  destruct six; cbn [read_addr]; [apply v6_addr_iff|]. rewrite v4_iff. split; [apply ad_v4|]. intros H. now inversion H.
Qed.
Lemma read_mask_iff six s p : read_mask six s = Some p <-> prefix_length six s p.
Proof.
  destruct six; cbn [read_mask]; [|apply v4_mask_iff]. rewrite prefix_number_iff. split; [intros [H1 H2]; now apply pl_number|]. intros H. inversion H; subst. split; assumption.
Qed.
Lemma address_slash six s n : address six s n -> lacks "/"%char s.
Proof.
  intros [a m H|a m H|a m z H _ _ Hz].
  - apply (ipv4_lacks _ _ _ H); [reflexivity|discriminate].
  - apply (ipv6_lacks _ _ _ H); [reflexivity|discriminate|discriminate].
  - intros K. apply in_app_or in K as [K|[K|K]]; [revert K; apply (ipv6_lacks _ _ _ H); [reflexivity|discriminate|discriminate]|discriminate|exact (Hz K)].
Qed.
Lemma prefix_lacks six s p x : prefix_length six s p -> is_dec x = false -> x <> "."%char -> lacks x s.
Proof.
  intros [? ? ? H _|? ? _ H|? ? _ H] Hx Hd; [exact (reads10_lacks _ _ _ H Hx)|exact (ipv4_lacks _ _ _ H Hx Hd)|exact (ipv4_lacks _ _ _ H Hx Hd)].
Qed.
Lemma read_iface_iff six s o : read_iface six s = Some o <-> exists n p, o = Iface six n p /\ interface six s n p.
Proof.
  unfold read_iface. split.
  - pose proof (join_split $"/" s ltac:(discriminate)) as J. destruct (split $"/" s) as [|a [|m [|? ?]]]; try discriminate; cbn [join] in J.
    + destruct (read_addr six a) as [n|] eqn:E; [|discriminate]. intros H. apply read_addr_iff in E. subst a. exists n, (width six). split; [symmetry; now injection H|now apply if_alone].
    + destruct (read_addr six a) as [n|] eqn:E; [|discriminate]. destruct (read_mask six m) as [p|] eqn:E2; [|discriminate]. intros H. apply read_addr_iff in E. apply read_mask_iff in E2.
      exists n, p. split; [symmetry; now injection H|]. rewrite <- J. now apply if_prefix.
  - intros (n & p & -> & H). change ($"/") with ["/"%char]. destruct H as [six s n H|six a m n p H1 H2].
    + rewrite (split_lacks _ _ (address_slash _ _ _ H)). apply read_addr_iff in H. now rewrite H.
    + change (a ++ t_ "/" ++ m) with (a ++ "/"%char :: m). rewrite (split_app _ _ _ (address_slash _ _ _ H1)).
      rewrite split_lacks by (apply (prefix_lacks _ _ _ _ H2); [reflexivity|discriminate]). apply read_addr_iff in H1. apply read_mask_iff in H2. now rewrite H1, H2.
Qed.
(** an IPv4 text is no IPv6 text *)
Lemma address_colon six s n : address six s n -> (In ":"%char s <-> six = true).
Proof.
  intros [a m H|a m H|a m z H _ _ _].
  - split; [|discriminate]. intros K. exfalso. revert K. apply (ipv4_lacks _ _ _ H); [reflexivity|discriminate].
  - split; [reflexivity|]. intros _. exact (ipv6_colon _ _ H).
  - split; [reflexivity|]. intros _. apply in_or_app. left. exact (ipv6_colon _ _ H).
Qed.
Lemma interface_colon six s n p : interface six s n p -> (In ":"%char s <-> six = true).
Proof.
  intros [? a m H|? a x m q H H2]; [exact (address_colon _ _ _ H)|]. rewrite <- (address_colon _ _ _ H). split; [|intros K; apply in_or_app; now left].
  intros K. apply in_app_or in K as [K|[K|K]]; [exact K|discriminate|]. exfalso. revert K. apply (prefix_lacks _ _ _ _ H2); [reflexivity|discriminate].
Qed.
Lemma or_six_iff f o : (forall x y, f false = Some x -> f true = Some y -> False) -> or_six f = Some o <-> exists six, f six = Some o.
Proof.
  intros D. unfold or_six. destruct (f false) as [x|] eqn:E.
  - split; [intros H; exists false; congruence|]. intros ([|] & H); [elim (D x o eq_refl H)|congruence].
  - split; [intros H; now exists true|]. intros ([|] & H); congruence.
Qed.
Lemma slash_map s : replace_all $" " $"/" s = map (fun c => if Ascii.eqb c " " then "/"%char else c) s.
Proof.
  change (replace_go [" "%char] ["/"%char] s 0 = map (fun c => if Ascii.eqb c " " then "/"%char else c) s).
  induction s as [|c s IH]; [reflexivity|]. cbn [replace_go]. rewrite prefixb_char. cbn [map length]. rewrite Ascii.eqb_sym. destruct (Ascii.eqb c " "); [cbn [app]; f_equal; exact IH|].
  f_equal. exact IH.
Qed.
Lemma in_b c s : existsb (Ascii.eqb c) s = true <-> In c s.
Proof. rewrite existsb_exists. split; [intros (x & H & E); apply Ascii.eqb_eq in E; congruence|intros H; exists c; split; [exact H|apply Ascii.eqb_refl]]. Qed.
Lemma in_bf c s : existsb (Ascii.eqb c) s = false <-> ~ In c s.
Proof. rewrite <- in_b. destruct (existsb _ s); split; congruence. Qed.

(** ** what the arguments of the functions are *)
Definition obj (six : bool) (n : N) (p : option N) : ipobj := match p with None => Addr six n | Some p => Iface six n p end.
Lemma read_address_iff six s o : read_address six s = Some o <-> exists n, o = Addr six n /\ address six s n.
Proof.
  unfold read_address. destruct (read_addr six s) as [n|] eqn:E.
  - split; [intros H; exists n; split; [congruence|now apply read_addr_iff]|]. intros (m & -> & H). apply read_addr_iff in H. congruence.
  - split; [discriminate|]. intros (m & _ & H). apply read_addr_iff in H. congruence.
Qed.
Lemma address_slashed six s n : address six s n -> slashed s = false <-> ~ In " "%char s.
Proof. intros H. unfold slashed. rewrite orb_false_iff, !in_bf. pose proof (address_slash _ _ _ H) as L. unfold lacks in L. tauto. Qed.
Lemma slashed_true s : slashed s = true <-> In "/"%char s \/ In " "%char s.
Proof. unfold slashed. now rewrite orb_true_iff, !in_b. Qed.
Lemma slashed_false s : slashed s = false <-> ~ In "/"%char s /\ ~ In " "%char s.
Proof. unfold slashed. now rewrite orb_false_iff, !in_bf. Qed.
Lemma to_ip_iff s args o : to_ip s args = Some o <-> exists six n p, spells args s six n p /\ o = obj six n p.
Proof.
  assert (Fwd : (exists six n p, spells args s six n p /\ o = obj six n p) <->
    (exists six n, asked_for args six /\ address six s n /\ ~ In "/"%char s /\ (spaced args -> ~ In " "%char s) /\ o = Addr six n) \/
    (exists six n p, asked_for args six /\ spaced args /\ (In "/"%char s \/ In " "%char s) /\ interface six (map (fun c => if Ascii.eqb c " " then "/"%char else c) s) n p /\ o = Iface six n p) \/
    (exists n p, ~ spaced args /\ In "/"%char s /\ interface true s n p /\ o = Iface true n p)).
  { split.
    - intros (six & n & p & H & ->). destruct H as [six n H1 H2 H3 H4|six n p H1 H2 H3 H4|n p H1 H2 H3].
      + left. exists six, n. repeat split; assumption.
      + right; left. exists six, n, p. repeat split; assumption.
      + right; right. exists n, p. repeat split; assumption.
    - intros [(six & n & H1 & H2 & H3 & H4 & ->)|[(six & n & p & H1 & H2 & H3 & H4 & ->)|(n & p & H1 & H2 & H3 & ->)]].
      + exists six, n, None. split; [now apply sp_address|reflexivity].
      + exists six, n, (Some p). split; [now apply sp_interface|reflexivity].
      + exists true, n, (Some p). split; [now apply sp_interface6|reflexivity]. }
  rewrite Fwd. clear Fwd. unfold to_ip, asked_for, spaced. change (t_ "ipv4") with ($"ipv4"). change (t_ "ipv6") with ($"ipv6").
  destruct (existsb (py_eq (VStr $"ipv4")) args); [|destruct (existsb (py_eq (VStr $"ipv6")) args)].
  - destruct (slashed s) eqn:S.
    + rewrite read_iface_iff, slash_map. split.
      * intros (n & p & -> & H). right; left. exists false, n, p. apply slashed_true in S. repeat split; auto.
      * intros [(six & n & _ & _ & H1 & H2 & _)|[(six & n & p & -> & _ & _ & H & ->)|(n & p & H & _)]]; [|eauto|tauto].
        apply slashed_true in S. exfalso. destruct S as [S|S]; [exact (H1 S)|]. apply H2; [now left|exact S].
    + rewrite read_address_iff. apply slashed_false in S as [S1 S2]. split.
      * intros (n & -> & H). left. exists false, n. repeat split; auto.
      * intros [(six & n & -> & H & _ & _ & ->)|[(six & n & p & _ & _ & H & _)|(n & p & H & _)]]; [eauto|tauto|tauto].
  - destruct (existsb (Ascii.eqb "/") s) eqn:S.
    + rewrite read_iface_iff. apply in_b in S. split.
      * intros (n & p & -> & H). right; right. exists n, p. repeat split; auto. intros [K|K]; discriminate.
      * intros [(six & n & _ & _ & H1 & _)|[(six & n & p & _ & [K|K] & _)|(n & p & _ & _ & H & ->)]]; [tauto|discriminate|discriminate|eauto].
    + rewrite read_address_iff. apply in_bf in S. split.
      * intros (n & -> & H). left. exists true, n. repeat split; auto. intros [K|K]; discriminate.
      * intros [(six & n & -> & H & _ & _ & ->)|[(six & n & p & _ & [K|K] & _)|(n & p & _ & H & _)]]; [eauto|discriminate|discriminate|tauto].
  - destruct (slashed s) eqn:S.
    + rewrite or_six_iff.
      2:{ intros x y H1 H2. apply read_iface_iff in H1 as (n & p & _ & H1). apply read_iface_iff in H2 as (m & q & _ & H2). pose proof (interface_colon _ _ _ _ H1). pose proof (interface_colon _ _ _ _ H2).
          assert (false = true) by tauto. discriminate. }
      split.
      * intros (six & H). apply read_iface_iff in H as (n & p & -> & H). rewrite slash_map in H. right; left. exists six, n, p. apply slashed_true in S. repeat split; auto.
      * intros [(six & n & _ & _ & H1 & H2 & _)|[(six & n & p & _ & _ & _ & H & ->)|(n & p & H & _)]]; [| |tauto].
        -- apply slashed_true in S. exfalso. destruct S as [S|S]; [exact (H1 S)|]. apply H2; [now right|exact S].
        -- exists six. apply read_iface_iff. rewrite slash_map. eauto.
    + rewrite or_six_iff.
      2:{ intros x y H1 H2. apply read_address_iff in H1 as (n & _ & H1). apply read_address_iff in H2 as (m & _ & H2). pose proof (address_colon _ _ _ H1). pose proof (address_colon _ _ _ H2).
          assert (false = true) by tauto. discriminate. }
      apply slashed_false in S as [S1 S2]. split.
      * intros (six & H). apply read_address_iff in H as (n & -> & H). left. exists six, n. repeat split; auto.
      * intros [(six & n & _ & H & _ & _ & ->)|[(six & n & p & _ & _ & H & _)|(n & p & H & _)]]; [|tauto|tauto]. exists six. apply read_address_iff. eauto.
Qed.

(** ** numbers *)
Lemma number_bound ns : Forall (fun g => g < 2 ^ 16) ns -> forall n m, n < 2 ^ (16 * m) -> fold_left step ns n < 2 ^ (16 * (m + N.of_nat (length ns))).
Proof.
  induction 1 as [|g ns Hg _ IH]; intros n m Hn; cbn [fold_left length].
  - replace (m + N.of_nat 0) with m by lia. exact Hn.
  - replace (m + N.of_nat (S (length ns))) with (N.succ m + N.of_nat (length ns)) by lia. apply IH. unfold step.
    replace (16 * N.succ m) with (16 * m + 16) by lia. rewrite N.pow_add_r. nia.
Qed.
Lemma hex_bound s : forall a n, hex_val s a = Some n -> n < (a + 1) * 16 ^ N.of_nat (length s).
Proof.
  induction s as [|c s IH]; intros a n H; cbn [hex_val] in H.
  - assert (n = a) by congruence. subst. cbn. lia.
  - destruct (hexval c) as [d|] eqn:E; [|discriminate]. assert (d < 16) by (apply digit16 in E; destruct E; assumption).
    apply IH in H. cbn [length]. rewrite Nnat.Nat2N.inj_succ, N.pow_succ_r'. eapply N.lt_le_trans; [exact H|]. assert (16 ^ N.of_nat (length s) <> 0) by (apply N.pow_nonzero; lia). nia.
Qed.
Lemma group_bound s n : group s n -> n < 2 ^ 16.
Proof.
  intros [H L]. apply reads16 in H as [_ H]. apply hex_bound in H. eapply N.lt_le_trans; [exact H|]. change (2 ^ 16) with (16 ^ 4). rewrite N.mul_1_l. apply N.pow_le_mono_r; lia.
Qed.
Lemma ending_bound l ns : ending l ns -> Forall (fun g => g < 2 ^ 16) ns.
Proof.
  induction 1 as [|s n H|s n l ns H _ IH]; [constructor| |constructor; [exact (group_bound _ _ H)|exact IH]].
  apply ipv4_below in H. constructor; [|constructor; [|constructor]].
  - apply N.div_lt_upper_bound; [discriminate|]. exact H.
  - apply N.mod_lt. discriminate.
Qed.
Lemma ipv6_below s n : ipv6 s n -> n < 2 ^ 128.
Proof.
  assert (B : forall ns, length ns = 8%nat -> Forall (fun g => g < 2 ^ 16) ns -> number_of ns < 2 ^ 128).
  { intros ns L F. pose proof (number_bound ns F 0 0 ltac:(reflexivity)) as K. rewrite L in K. exact K. }
  intros [l ns F L|l1 ns1 l2 ns2 k F1 F2 L K]; apply B.
  - exact L.
  - exact (ending_bound _ _ F).
  - rewrite !app_length, repeat_length. lia.
  - apply Forall_app. split; [exact (ending_bound _ _ (ending_groups _ _ F1))|]. apply Forall_app. split; [|exact (ending_bound _ _ F2)].
    apply Forall_forall. intros x Hx. apply repeat_spec in Hx. subst x. reflexivity.
Qed.
Lemma address_below six s n : address six s n -> n < 2 ^ width six.
Proof. intros [a m H|a m H|a m z H _ _ _]; [exact (ipv4_below _ _ H)|exact (ipv6_below _ _ H)|exact (ipv6_below _ _ H)]. Qed.
Lemma prefix_below six s p : prefix_length six s p -> p <= width six.
Proof. intros [? ? ? _ H|? ? H _|? ? H _]; cbn; lia. Qed.
Lemma interface_below six s n p : interface six s n p -> n < 2 ^ width six /\ p <= width six.
Proof. intros [? a m H|? a x m q H H2]; split; [exact (address_below _ _ _ H)|lia|exact (address_below _ _ _ H)|exact (prefix_below _ _ _ H2)]. Qed.

(** ** masks *)
Lemma shiftr_ones_bit w p i : p <= w -> N.testbit (N.shiftr (N.ones w) p) i = (i <? w - p).
Proof.
  intros H. rewrite N.shiftr_spec'. destruct (i <? w - p) eqn:E; [apply N.ltb_lt in E; apply N.ones_spec_low; lia|apply N.ltb_ge in E; apply N.ones_spec_high; lia].
Qed.
Lemma land_mask w n p : n < 2 ^ w -> p <= w -> N.land n (netmask w p) = n / 2 ^ (w - p) * 2 ^ (w - p).
Proof.
  intros Hn Hp. rewrite <- N.shiftr_div_pow2, <- N.shiftl_mul_pow2. apply N.bits_inj. intros i. unfold netmask. rewrite N.land_spec, N.lxor_spec, (shiftr_ones_bit _ _ _ Hp).
  destruct (i <? w - p) eqn:E; [apply N.ltb_lt in E|apply N.ltb_ge in E].
  - rewrite N.shiftl_spec_low by exact E. rewrite N.ones_spec_low by lia. apply andb_false_r.
  - rewrite N.shiftl_spec_high' by exact E. rewrite N.shiftr_spec'. replace (i - (w - p) + (w - p)) with i by lia. rewrite xorb_false_r.
    destruct (N.lt_ge_cases i w) as [L|L]; [rewrite N.ones_spec_low by lia; apply andb_true_r|].
    replace (N.testbit n i) with false; [reflexivity|]. symmetry. destruct (N.eq_dec n 0) as [->|N0]; [apply N.bits_0|]. apply N.bits_above_log2. apply N.log2_lt_pow2; [lia|].
    eapply N.lt_le_trans; [exact Hn|]. apply N.pow_le_mono_r; lia.
Qed.
Lemma broadcast_div six net p : p <= width six -> broadcast six net p / 2 ^ (width six - p) = net / 2 ^ (width six - p).
Proof.
  intros Hp. rewrite <- !N.shiftr_div_pow2. apply N.bits_inj. intros i. rewrite !N.shiftr_spec'. unfold broadcast, netmask. rewrite N.lor_spec, !N.lxor_spec.
  change (Ip.width six) with (width six). rewrite (shiftr_ones_bit _ _ _ Hp). replace (i + (width six - p) <? width six - p) with false by (symmetry; apply N.ltb_ge; lia).
  rewrite xorb_false_r, xorb_nilpotent. apply orb_false_r.
Qed.
Lemma div_below w k n : k <= w -> n / 2 ^ k < 2 ^ (w - k) <-> n < 2 ^ w.
Proof.
  intros H. assert (E : 2 ^ w = 2 ^ k * 2 ^ (w - k)) by (rewrite <- N.pow_add_r; f_equal; lia). assert (P : 2 ^ k <> 0) by (apply N.pow_nonzero; lia). rewrite E. split.
  - intros L. pose proof (N.div_mod n (2 ^ k) P). pose proof (N.mod_lt n (2 ^ k) P). nia.
  - intros L. now apply N.div_lt_upper_bound.
Qed.
Lemma within_iff six m q a : a < 2 ^ width six -> m < 2 ^ width six -> q <= width six -> m mod 2 ^ (width six - q) = 0 -> within six m q a = true <-> member six m q a.
Proof.
  intros Ha Hm Hq M. unfold within, member. change (Ip.width six) with (width six). rewrite N.eqb_eq, (land_mask _ _ _ Ha Hq).
  assert (P : 2 ^ (width six - q) <> 0) by (apply N.pow_nonzero; lia). pose proof (N.div_mod m _ P) as E. rewrite M in E. split; intros H.
  - apply (N.mul_cancel_r _ _ (2 ^ (width six - q))); [exact P|]. rewrite H. lia.
  - rewrite H. lia.
Qed.
Lemma up_div six n p q a b : p <= width six -> q <= p -> a / 2 ^ (width six - p) = b / 2 ^ (width six - p) -> a / 2 ^ (width six - q) = n -> b / 2 ^ (width six - q) = n.
Proof.
  intros Hp Hq E <-. replace (width six - q) with ((width six - p) + (p - q)) by lia. rewrite N.pow_add_r, <- !N.div_div by (apply N.pow_nonzero; lia). now rewrite E.
Qed.
Lemma network_spec six n p : n < 2 ^ width six -> p <= width six ->
  network six n p < 2 ^ width six /\ network six n p / 2 ^ (width six - p) = n / 2 ^ (width six - p) /\ network six n p mod 2 ^ (width six - p) = 0.
Proof.
  intros Hn Hp. unfold network. change (Ip.width six) with (width six). rewrite (land_mask _ _ _ Hn Hp). assert (P : 2 ^ (width six - p) <> 0) by (apply N.pow_nonzero; lia).
  split; [|split; [now apply N.div_mul|now apply N.mod_mul]]. eapply N.le_lt_trans; [|exact Hn]. rewrite N.mul_comm. now apply N.mul_div_le.
Qed.
Lemma broadcast_below six net p : net < 2 ^ width six -> p <= width six -> broadcast six net p < 2 ^ width six.
Proof.
  intros Hn Hp. apply (div_below _ (width six - p)); [lia|]. rewrite (broadcast_div _ _ _ Hp). apply div_below; [lia|exact Hn].
Qed.
Lemma overlaps_iff six n p m q : n < 2 ^ width six -> p <= width six -> m < 2 ^ width six -> q <= width six -> m mod 2 ^ (width six - q) = 0 ->
  overlaps six (network six n p) p m q = true <-> exists a, a < 2 ^ width six /\ member six n p a /\ member six m q a.
Proof.
  intros Hn Hp Hm Hq Mm. destruct (network_spec six n p Hn Hp) as (Bn & Dn & Mn). set (N1 := network six n p) in *.
  pose proof (broadcast_below six N1 p Bn Hp) as B1. pose proof (broadcast_below six m q Hm Hq) as B2. pose proof (broadcast_div six N1 p Hp) as D1. pose proof (broadcast_div six m q Hq) as D2.
  unfold overlaps. rewrite !orb_true_iff, !within_iff by assumption. unfold member. rewrite <- Dn. split.
  - intros [[[H|H]|H]|H].
    + exists N1. auto.
    + exists (broadcast six N1 p). auto.
    + exists m. auto.
    + exists (broadcast six m q). auto.
  - intros (a & Ha & H1 & H2). destruct (N.le_ge_cases q p) as [L|L].
    + left; left; left. exact (up_div six _ p q a N1 Hp L H1 H2).
    + left; right. exact (up_div six _ q p a m Hq L H2 H1).
Qed.

(** ** is_ip and cidr_match *)
Lemma spells_det args s six n p six' n' p' : spells args s six n p -> spells args s six' n' p' -> obj six n p = obj six' n' p'.
Proof.
  intros H1 H2. assert (E1 : to_ip s args = Some (obj six n p)) by (apply to_ip_iff; eauto). assert (E2 : to_ip s args = Some (obj six' n' p')) by (apply to_ip_iff; eauto). congruence.
Qed.
Lemma obj_inj six n p six' n' p' : obj six n p = obj six' n' p' -> six = six' /\ n = n' /\ p = p'.
Proof. destruct p, p'; cbn [obj]; intros H; try discriminate; repeat split; congruence. Qed.
Lemma not_text_str s (P : Prop) : not_text (VStr s) -> P.
Proof. intros H. elim (H s). reflexivity. Qed.
Lemma is_ip_fun args d r : is_ip_gives args d r -> f_is_ip d args = r.
Proof.
  intros [s six n p H|s H|v H1 H2|o]; cbn [f_is_ip].
  - assert (E : to_ip s args = Some (obj six n p)) by (apply to_ip_iff; eauto). now rewrite E.
  - destruct (to_ip s args) as [o|] eqn:E; [|reflexivity]. apply to_ip_iff in E as (six & n & p & K & _). elim (H _ _ _ K).
  - destruct v as [| | |s| | |o]; try reflexivity; [now apply (not_text_str s)|]. elim (H2 o). reflexivity.
  - reflexivity.
Qed.
Lemma is_ip_iff args d r : f_is_ip d args = r <-> is_ip_gives args d r.
Proof.
  split; [|apply is_ip_fun]. intros <-. destruct d as [|b|z|s|l|dd|o]; cbn [f_is_ip]; try (apply ig_other; [intros ?|intros ?]; discriminate); [|apply ig_object].
  destruct (to_ip s args) as [x|] eqn:E.
  - apply to_ip_iff in E as (six & n & p & K & _). exact (ig_yes args s six n p K).
  - apply ig_no. intros six n p K. assert (to_ip s args = Some (obj six n p)) by (apply to_ip_iff; eauto). congruence.
Qed.

Lemma strict_iff six s x m q : strict (read_iface six s) = Some (Iface x m q) <-> x = six /\ network_text s six m q.
Proof.
  unfold network_text. split.
  - destruct (read_iface six s) as [o|] eqn:E; [|discriminate]. apply read_iface_iff in E as (n & p & -> & H). unfold strict. destruct (_ =? _) eqn:N; [|discriminate]. intros K.
    assert (x = six /\ m = n /\ q = p) as (-> & -> & ->) by (repeat split; congruence). split; [reflexivity|]. split; [exact H|].
    apply N.eqb_eq in N. destruct (interface_below _ _ _ _ H) as [B1 B2]. change (Ip.width six) with (width six) in N. rewrite (land_mask _ _ _ B1 B2) in N. rewrite <- N. apply N.mod_mul. apply N.pow_nonzero. discriminate.
  - intros (-> & H & M). assert (E : read_iface six s = Some (Iface six m q)) by (apply read_iface_iff; eauto). rewrite E. unfold strict.
    destruct (interface_below _ _ _ _ H) as [B1 B2]. change (Ip.width six) with (width six). rewrite (land_mask _ _ _ B1 B2).
    pose proof (N.div_mod m (2 ^ (width six - q)) ltac:(apply N.pow_nonzero; discriminate)) as D. rewrite M in D.
    replace (m / 2 ^ (width six - q) * 2 ^ (width six - q) =? m) with true; [reflexivity|]. symmetry. apply N.eqb_eq. lia.
Qed.
Lemma strict_shape six s o : strict (read_iface six s) = Some o -> exists m q, o = Iface six m q.
Proof.
  destruct (read_iface six s) as [i|] eqn:E; [|discriminate]. apply read_iface_iff in E as (n & p & -> & H). unfold strict. destruct (_ =? _); [|discriminate]. intros K. exists n, p. congruence.
Qed.
Lemma to_net_iff s o : to_net s = Some o <-> exists six n p, o = Iface six n p /\ network_text s six n p.
Proof.
  unfold to_net. rewrite or_six_iff.
  2:{ intros x y H1 H2. destruct (strict_shape _ _ _ H1) as (m & q & ->). destruct (strict_shape _ _ _ H2) as (m' & q' & ->). apply strict_iff in H1 as (_ & H1 & _). apply strict_iff in H2 as (_ & H2 & _).
      pose proof (interface_colon _ _ _ _ H1). pose proof (interface_colon _ _ _ _ H2). assert (false = true) by tauto. discriminate. }
  split.
  - intros (six & H). destruct (strict_shape _ _ _ H) as (m & q & ->). apply strict_iff in H as [_ H]. exists six, m, q. auto.
  - intros (six & n & p & -> & H). exists six. now apply strict_iff.
Qed.
(** what the prefix gives *)
Definition net_of (vars : dict) (prefix : str) : res (bool * N * N) :=
  match dget vars (KS prefix) with
  | Some (VInt _) | Some (VBool _) | Some (VList _) | Some (VObj _) => Raise RuntimeError
  | Some VNone | Some (VDict _) => Raise ValueError
  | Some (VStr s) => match to_net s with Some (Iface x n p) => Ok (x, n, p) | _ => Raise ValueError end
  | None => match to_net prefix with Some (Iface x n p) => Ok (x, n, p) | _ => Raise ValueError end
  end.
Lemma net_text vars prefix s : stands_for vars prefix (VStr s) -> given_network vars prefix (match to_net s with Some (Iface x n p) => Ok (x, n, p) | _ => Raise ValueError end).
Proof.
  intros S. destruct (to_net s) as [o|] eqn:E.
  - apply to_net_iff in E as (six & n & p & -> & H). exact (gn_net _ _ s six n p S H).
  - apply (gn_bad _ _ s S). intros six n p H. assert (to_net s = Some (Iface six n p)) by (apply to_net_iff; eauto). congruence.
Qed.
Lemma net_of_gives vars prefix : given_network vars prefix (net_of vars prefix).
Proof.
  unfold net_of. destruct (dget vars (KS prefix)) as [v|] eqn:E; [apply sf_var in E|apply sf_self in E; exact (net_text _ _ _ E)].
  destruct v as [|b|z|s|l|d|o]; try (apply (gn_outside _ _ _ E); eauto 6); try (apply (gn_other _ _ _ E); eauto). exact (net_text _ _ _ E).
Qed.
Lemma stands_det vars n v w : stands_for vars n v -> stands_for vars n w -> v = w.
Proof. intros [x H|H] K; inversion K; congruence. Qed.
Lemma gives_net vars prefix r : given_network vars prefix r <-> net_of vars prefix = r.
Proof.
  split; [|intros <-; apply net_of_gives].
  assert (St : forall v, stands_for vars prefix v -> net_of vars prefix =
    match v with VInt _ | VBool _ | VList _ | VObj _ => Raise RuntimeError | VNone | VDict _ => Raise ValueError
    | VStr s => match to_net s with Some (Iface x n p) => Ok (x, n, p) | _ => Raise ValueError end end).
  { intros v [w H|H]; unfold net_of; rewrite H; reflexivity. }
  intros [s six n p S H|s S H|v S [->|(d & ->)]|v S [(z & ->)|[(b & ->)|[(l & ->)|(o & ->)]]]]; rewrite (St _ S); try reflexivity.
  - assert (E : to_net s = Some (Iface six n p)) by (apply to_net_iff; eauto). now rewrite E.
  - destruct (to_net s) as [o|] eqn:E; [|reflexivity]. apply to_net_iff in E as (six & n & p & -> & K). elim (H _ _ _ K).
Qed.
Lemma cidr_unfold vars d prefix : f_cidr_match vars d prefix =
  match d with
  | VObj _ => Raise RuntimeError
  | VStr s => match to_ip s [] with
              | None => Ok (d, FNone)
              | Some o => match net_of vars prefix with
                          | Ok (y, m, q) => let '(x, n, p) := match o with Addr x n => (x, n, Ip.width x) | Iface x n p => (x, n, p) end in
                                            Ok (d, FBool (Bool.eqb x y && overlaps x (network x n p) p m q))
                          | Raise e => Raise e
                          end
              end
  | _ => match net_of vars prefix with Ok _ => Ok (d, FNone) | Raise e => Raise e end
  end.
Proof.
  unfold f_cidr_match, net_of. destruct d as [|b|z|s|l|dd|o]; try reflexivity.
  4:{ destruct (to_ip s []) as [[x n|x n p]|]; [| |reflexivity]; (destruct (dget vars (KS prefix)) as [v|]; [destruct v as [| | |t| | |]; try reflexivity; destruct (to_net t) as [[|]|]; reflexivity|destruct (to_net prefix) as [[|]|]; reflexivity]). }
  all: destruct (dget vars (KS prefix)) as [v|]; [destruct v as [| | |t| | |]; try reflexivity; destruct (to_net t) as [[|]|]; reflexivity|destruct (to_net prefix) as [[|]|]; reflexivity].
Qed.
Lemma spells_below args s six n p : spells args s six n p -> n < 2 ^ width six /\ match p with Some p => p | None => width six end <= width six.
Proof.
  intros [? ? _ H _ _|? ? ? _ _ _ H|? ? _ _ H]; [split; [exact (address_below _ _ _ H)|lia]|exact (interface_below _ _ _ _ H)|exact (interface_below _ _ _ _ H)].
Qed.
Lemma net_below vars prefix six m q : given_network vars prefix (Ok (six, m, q)) -> m < 2 ^ width six /\ q <= width six /\ m mod 2 ^ (width six - q) = 0.
Proof. intros H. inversion H; subst. match goal with K : network_text _ _ _ _ |- _ => destruct K as [K M]; destruct (interface_below _ _ _ _ K); auto end. Qed.
Lemma cidr_test vars prefix s six n p y m q : spells [] s six n p -> given_network vars prefix (Ok (y, m, q)) ->
  let q' := match p with Some p => p | None => width six end in
  (Bool.eqb six y && overlaps six (network six n q') q' m q)%bool = true <-> six = y /\ exists a, a < 2 ^ width six /\ member six n q' a /\ member six m q a.
Proof.
  intros S G q'. destruct (spells_below _ _ _ _ _ S) as [B1 B2]. destruct (net_below _ _ _ _ _ G) as (B3 & B4 & M). fold q' in B2. rewrite andb_true_iff, Bool.eqb_true_iff. split.
  - intros [<- H]. split; [reflexivity|]. now apply overlaps_iff in H.
  - intros [<- H]. split; [reflexivity|]. now apply overlaps_iff.
Qed.
Lemma cidr_text vars prefix s six n p : spells [] s six n p -> f_cidr_match vars (VStr s) prefix =
  match net_of vars prefix with
  | Ok (y, m, q) => let q' := match p with Some p => p | None => width six end in Ok (VStr s, FBool (Bool.eqb six y && overlaps six (network six n q') q' m q))
  | Raise e => Raise e
  end.
Proof.
  intros S. assert (E : to_ip s [] = Some (obj six n p)) by (apply to_ip_iff; eauto). rewrite cidr_unfold, E. destruct p; reflexivity.
Qed.
Lemma cidr_fun vars prefix d r : cidr_gives vars prefix d r -> f_cidr_match vars d prefix = r.
Proof.
  intros [s H|s six n p y m q b S G B|s six n p e S G|v x H1 H2 G|v e H1 H2 G|o].
  - rewrite cidr_unfold. destruct (to_ip s []) as [o|] eqn:E; [|reflexivity]. apply to_ip_iff in E as (six & n & p & K & _). elim (H _ _ _ K).
  - rewrite (cidr_text _ _ _ _ _ _ S), (proj1 (gives_net _ _ _) G). cbv zeta. unfold checked. do 2 f_equal. f_equal. apply Bool.eq_iff_eq_true. rewrite (cidr_test _ _ _ _ _ _ _ _ _ S G). cbv zeta. symmetry. exact B.
  - now rewrite (cidr_text _ _ _ _ _ _ S), (proj1 (gives_net _ _ _) G).
  - apply gives_net in G. rewrite cidr_unfold, G. destruct v as [| | |s| | |o]; try reflexivity; [now apply (not_text_str s)|elim (H2 o); reflexivity].
  - apply gives_net in G. rewrite cidr_unfold, G. destruct v as [| | |s| | |o]; try reflexivity; [now apply (not_text_str s)|elim (H2 o); reflexivity].
  - reflexivity.
Qed.
Lemma cidr_iff vars prefix d r : f_cidr_match vars d prefix = r <-> cidr_gives vars prefix d r.
Proof.
  split; [|apply cidr_fun]. intros <-. destruct (net_of vars prefix) as [[[y m] q]|e] eqn:G.
  - pose proof (proj2 (gives_net _ _ _) G) as G'. destruct d as [|b|z|s|l|dd|o]; try (rewrite cidr_unfold, G; apply (cg_other vars prefix _ (y, m, q)); [intros ?; discriminate|intros ?; discriminate|exact G']); [|apply cg_object].
    destruct (to_ip s []) as [o|] eqn:E.
    + apply to_ip_iff in E as (six & n & p & S & _). rewrite (cidr_text _ _ _ _ _ _ S), G. cbv zeta. eapply (cg_tested _ _ _ _ _ _ _ _ _ _ S G'). exact (cidr_test _ _ _ _ _ _ _ _ _ S G').
    + rewrite cidr_unfold, E. apply cg_no_address. intros six n p K. assert (to_ip s [] = Some (obj six n p)) by (apply to_ip_iff; eauto). congruence.
  - pose proof (proj2 (gives_net _ _ _) G) as G'. destruct d as [|b|z|s|l|dd|o]; try (rewrite cidr_unfold, G; apply (cg_other_bad vars prefix _ e); [intros ?; discriminate|intros ?; discriminate|exact G']); [|apply cg_object].
    destruct (to_ip s []) as [o|] eqn:E.
    + apply to_ip_iff in E as (six & n & p & S & _). rewrite (cidr_text _ _ _ _ _ _ S), G. exact (cg_bad _ _ _ _ _ _ _ S G').
    + rewrite cidr_unfold, E. apply cg_no_address. intros six n p K. assert (to_ip s [] = Some (obj six n p)) by (apply to_ip_iff; eauto). congruence.
Qed.
