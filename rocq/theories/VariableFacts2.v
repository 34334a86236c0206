(** * VariableFacts2: chains, and the whole variable (for C121). *)
From Coq Require Import Lia.
From Verif Require Import PyBase DictFacts ResultsFacts StrFacts OutputFacts SessionFacts FormRegex Results Template Attributes MatchVar SpecVariable VariableFacts.
Local Open Scope string_scope.
Local Open Scope list_scope.

Section Chains.
Variable vars : dict.

(** ** chains to a given depth *)
Fixpoint flat (n : nat) (l : list called) : option (list called) :=
  (fix go (l : list called) : option (list called) :=
     match l with
     | [] => Some []
     | (k, a) :: t =>
         if str_eqb k (t_ "chain") then
           match at_args a with
           | [] => None
           | v :: _ =>
               match get_any vars v with
               | Raise _ => None
               | Ok None | Ok (Some VNone) => go t
               | Ok (Some x) =>
                   match n with
                   | O => None
                   | S m => match chain_texts x with
                            | Ok fs => match flat m (map by_own_name fs), go t with Some e, Some r => Some (e ++ r) | _, _ => None end
                            | Raise _ => None
                            end
                   end
               end
           end
         else option_map (cons (k, a)) (go t)
     end) l.
(** the value of a chain: nothing, or functions *)
Definition chain_value (a : attribute) : option (option (list attribute)) :=
  match at_args a with
  | [] => None
  | v :: _ => match get_any vars v with
              | Raise _ => None
              | Ok None | Ok (Some VNone) => Some None
              | Ok (Some x) => match chain_texts x with Ok fs => Some (Some fs) | Raise _ => None end
              end
  end.
Definition flat_one (n : nat) (c : called) : option (list called) :=
  if str_eqb (fst c) (t_ "chain") then
    match chain_value (snd c) with
    | None => None
    | Some None => Some []
    | Some (Some fs) => match n with O => None | S m => flat m (map by_own_name fs) end
    end
  else Some [c].
Lemma flat_nil n : flat n [] = Some []. Proof. destruct n; reflexivity. Qed.
Lemma flat_cons n c l : flat n (c :: l) = match flat_one n c, flat n l with Some e, Some r => Some (e ++ r) | _, _ => None end.
Proof.
  unfold flat_one, chain_value. destruct c as [k a]. cbn [fst snd].
  assert (G : forall o : option (list called), option_map (cons (k, a)) o = match Some [(k, a)], o with Some e, Some r => Some (e ++ r) | _, _ => None end) by (intros [o|]; reflexivity).
  assert (G' : forall o : option (list called), o = match Some [], o with Some e, Some r => Some (e ++ r) | _, _ => None end) by (intros [o|]; reflexivity).
  destruct n as [|m]; cbn [flat]; destruct (str_eqb k (t_ "chain")); try apply G.
  - destruct (at_args a) as [|v args]; [reflexivity|]. destruct (get_any vars v) as [[x|]|e]; [|apply G'|reflexivity]. destruct x; try apply G'; destruct (chain_texts _); reflexivity.
  - destruct (at_args a) as [|v args]; [reflexivity|]. destruct (get_any vars v) as [[x|]|e]; [|apply G'|reflexivity]. destruct x; try apply G'; destruct (chain_texts _); reflexivity.
Qed.
Lemma flat_mono : forall n m l r, n <= m -> flat n l = Some r -> flat m l = Some r.
Proof.
  induction n as [|n IHn]; intros m l; induction l as [|c l IHl]; intros r Hm H; [now rewrite flat_nil in *| |now rewrite flat_nil in *|]; rewrite flat_cons in *.
  - destruct (flat_one 0 c) as [e|] eqn:E1; [|discriminate]. destruct (flat 0 l) as [r'|] eqn:E2; [|discriminate]. rewrite (IHl _ Hm eq_refl).
    assert (E : flat_one m c = Some e); [|now rewrite E]. unfold flat_one in *. destruct (str_eqb (fst c) (t_ "chain")); [|exact E1]. destruct (chain_value (snd c)) as [[fs|]|]; [discriminate|exact E1|discriminate].
  - destruct (flat_one (S n) c) as [e|] eqn:E1; [|discriminate]. destruct (flat (S n) l) as [r'|] eqn:E2; [|discriminate]. rewrite (IHl _ Hm eq_refl).
    assert (E : flat_one m c = Some e); [|now rewrite E]. unfold flat_one in *. destruct (str_eqb (fst c) (t_ "chain")); [|exact E1]. destruct (chain_value (snd c)) as [[fs|]|]; [|exact E1|discriminate].
    destruct m as [|m]; [lia|]. apply IHn; [lia|exact E1].
Qed.
Lemma flat_app n l l' : flat n (l ++ l') = match flat n l, flat n l' with Some a, Some b => Some (a ++ b) | _, _ => None end.
Proof.
  induction l as [|c l IH]; cbn [app]; [rewrite flat_nil; now destruct (flat n l')|]. rewrite !flat_cons, IH. destruct (flat_one n c); [|reflexivity]. destruct (flat n l); [|reflexivity]. destruct (flat n l'); [|reflexivity]. now rewrite app_assoc.
Qed.
(** ** the rules *)
Lemma chain_value_iff a o : chain_value a = Some o <-> exists v args, at_args a = v :: args /\
  ((o = None /\ (names_variable vars v None \/ names_variable vars v (Some VNone))) \/ (exists x fs, o = Some fs /\ names_variable vars v (Some x) /\ x <> VNone /\ chained x fs)).
Proof.
  unfold chain_value. split.
  - destruct (at_args a) as [|v args]; [discriminate|]. destruct (get_any vars v) as [w|] eqn:E; [|discriminate]. apply any_iff in E. intros H. exists v, args. split; [reflexivity|].
    destruct w as [x|]; [|injection H as <-; tauto].
    assert (D : x = VNone \/ x <> VNone) by (destruct x; [now left|right; discriminate..]). destruct D as [->|Hx]; [injection H as <-; tauto|]. right.
    assert (K : match chain_texts x with Ok fs => Some (Some fs) | Raise _ => None end = Some o) by (destruct x; congruence). destruct (chain_texts x) as [fs|] eqn:Ef; [|discriminate]. injection K as <-. exists x, fs. split; [reflexivity|]. split; [exact E|]. split; [exact Hx|]. now apply chained_iff.
  - intros (v & args & -> & [(-> & [H|H])|(x & fs & -> & H & Hx & Hf)]); apply any_iff in H; rewrite H; try reflexivity. apply chained_iff in Hf. rewrite Hf. destruct x; congruence.
Qed.
Lemma flat_expands : forall n l r, flat n l = Some r -> expands vars l r.
Proof.
  induction n as [|n IHn]; induction l as [|c l IHl]; intros r H; try (rewrite flat_nil in H; injection H as <-; constructor); rewrite flat_cons in H; destruct (flat_one _ c) as [e|] eqn:E1; try discriminate; destruct (flat _ l) as [r'|] eqn:E2; try discriminate; injection H as <-; specialize (IHl r' eq_refl); destruct c as [k a]; unfold flat_one in E1; cbn [fst snd] in E1; destruct (str_eqb k (t_ "chain")) eqn:Ek.
  - apply str_eqb_eq in Ek. destruct (chain_value a) as [[fs|]|] eqn:Ec; try discriminate. injection E1 as <-. apply chain_value_iff in Ec. destruct Ec as (v & args & Ha & [(_ & [Hv|Hv])|(x & fs & K & _)]); [now apply (ex_nothing vars k a v args l r' None); auto|now apply (ex_nothing vars k a v args l r' (Some VNone)); auto|discriminate].
  - injection E1 as <-. cbn [app]. apply ex_function; [intros ->; rewrite str_eqb_refl in Ek; discriminate|exact IHl].
  - apply str_eqb_eq in Ek. destruct (chain_value a) as [[fs|]|] eqn:Ec; try discriminate; apply chain_value_iff in Ec; destruct Ec as (v & args & Ha & [(K & Hv)|(x & fs' & K & Hv & Hx & Hf)]); try discriminate.
    + injection K as ->. apply (ex_chain vars k a v args x fs'); auto.
    + injection E1 as <-. destruct Hv as [Hv|Hv]; [apply (ex_nothing vars k a v args l r' None); auto|apply (ex_nothing vars k a v args l r' (Some VNone)); auto].
  - injection E1 as <-. cbn [app]. apply ex_function; [intros ->; rewrite str_eqb_refl in Ek; discriminate|exact IHl].
Qed.
Lemma expands_flat l r : expands vars l r -> exists n, flat n l = Some r.
Proof.
  induction 1 as [|k a l r Hk H (n & IH)|k a v args l r o Hk Ha Hv Ho H (n & IH)|k a v args x fs es l r Hk Ha Hv Hx Hf He (n1 & IH1) H (n2 & IH2)].
  - exists 0. reflexivity.
  - exists n. rewrite flat_cons, IH. unfold flat_one. cbn [fst snd]. destruct (str_eqb k (t_ "chain")) eqn:E; [apply str_eqb_eq in E; congruence|]. reflexivity.
  - exists n. rewrite flat_cons, IH. unfold flat_one. cbn [fst snd]. rewrite Hk, str_eqb_refl.
    assert (E : chain_value a = Some None) by (apply chain_value_iff; exists v, args; split; [exact Ha|]; left; split; [reflexivity|]; destruct Ho as [->| ->]; tauto). rewrite E. reflexivity.
  - exists (S (Nat.max n1 n2)). rewrite flat_cons. rewrite (flat_mono n2 (S (Nat.max n1 n2)) l r ltac:(lia) IH2). unfold flat_one. cbn [fst snd]. rewrite Hk, str_eqb_refl.
    assert (E : chain_value a = Some (Some fs)) by (apply chain_value_iff; exists v, args; split; [exact Ha|]; right; exists x, fs; auto). rewrite E.
    rewrite (flat_mono n1 (Nat.max n1 n2) _ es ltac:(lia) IH1). reflexivity.
Qed.

(** ** as many steps as there are variables are enough *)
Definition some {A} (o : option A) : bool := match o with Some _ => true | None => false end.
(** the functions of a variable can be written out in [n] steps *)
Definition okv (n : nat) (k : key) : bool :=
  match dget vars k with Some x => match chain_texts x with Ok fs => some (flat n (map by_own_name fs)) | Raise _ => false end | None => false end.
Lemma okv_mono n m k : n <= m -> okv n k = true -> okv m k = true.
Proof.
  unfold okv. intros Hm. destruct (dget vars k) as [x|]; [|discriminate]. destruct (chain_texts x) as [fs|]; [|discriminate]. destruct (flat n (map by_own_name fs)) as [r|] eqn:E; [|discriminate]. now rewrite (flat_mono n m _ r Hm E).
Qed.
(** what is needed at [S n] is that the variables are fine at [n] *)
Lemma flat_okv n m l : (forall k, okv n k = okv m k) -> some (flat (S n) l) = some (flat (S m) l).
Proof.
  intros H. induction l as [|c l IH]; [now rewrite !flat_nil|]. rewrite !flat_cons.
  assert (E : some (flat_one (S n) c) = some (flat_one (S m) c)).
  { unfold flat_one. destruct (str_eqb (fst c) (t_ "chain")); [|reflexivity]. unfold chain_value. destruct (at_args (snd c)) as [|v args]; [reflexivity|].
    destruct (get_any vars v) as [[x|]|] eqn:Ev; try reflexivity. assert (D : x = VNone \/ x <> VNone) by (destruct x; [now left|right; discriminate..]). destruct D as [->|Hx]; [reflexivity|].
    assert (exists k, dget vars k = Some x) as (k & Hk).
    { apply any_iff in Ev. inversion Ev as [v' k Hk E|]; subst. exists k. now symmetry. }
    specialize (H k). unfold okv in H. rewrite Hk in H. destruct x; try congruence; destruct (chain_texts _); try reflexivity; exact H. }
  destruct (flat_one (S n) c), (flat_one (S m) c); try discriminate; [|reflexivity]. destruct (flat (S n) l), (flat (S m) l); try discriminate; reflexivity.
Qed.
Lemma okv_step n m : (forall k, okv n k = okv m k) -> forall k, okv (S n) k = okv (S m) k.
Proof. intros H k. unfold okv at 1 2. destruct (dget vars k) as [x|]; [|reflexivity]. destruct (chain_texts x) as [fs|]; [|reflexivity]. now apply flat_okv. Qed.
Definition count (n : nat) : nat := length (filter (fun kv => okv n (fst kv)) vars).
Lemma filter_grows {A} (f g : A -> bool) l : (forall x, f x = true -> g x = true) -> length (filter f l) <= length (filter g l) /\ (length (filter f l) = length (filter g l) -> forall x, In x l -> f x = g x).
Proof.
  intros H. induction l as [|y l (IH1 & IH2)]; [split; [reflexivity|intros _ x []]|]. cbn [filter]. destruct (f y) eqn:Ef.
  - rewrite (H y Ef). cbn [length]. split; [lia|]. intros E x [<-|Hx]; [now rewrite Ef, (H y Ef)|]. apply IH2; [lia|exact Hx].
  - destruct (g y) eqn:Eg; cbn [length]; [split; [lia|]; intros E; lia|]. split; [exact IH1|]. intros E x [<-|Hx]; [congruence|now apply IH2].
Qed.
Lemma okv_in n k : okv n k = true -> exists v, In (k, v) vars.
Proof. unfold okv. destruct (dget vars k) as [x|] eqn:E; [|discriminate]. intros _. exists x. now apply dget_In. Qed.
Lemma count_le n : count n <= length vars.
Proof. unfold count. apply filter_len || (induction vars as [|y l IH]; cbn [filter length]; [lia|]; destruct (okv n (fst y)); cbn [length]; lia). Qed.
Lemma count_same n : count n = count (S n) -> forall k, okv n k = okv (S n) k.
Proof.
  intros E k. pose proof (filter_grows (fun kv => okv n (fst kv)) (fun kv => okv (S n) (fst kv)) vars (fun x => okv_mono n (S n) (fst x) ltac:(lia))) as [_ H]. specialize (H E).
  destruct (okv (S n) k) eqn:E1; [|destruct (okv n k) eqn:E2; [apply (okv_mono n (S n) k ltac:(lia)) in E2; congruence|reflexivity]].
  destruct (okv_in _ _ E1) as (v & Hv). specialize (H (k, v) Hv). cbn [fst] in H. congruence.
Qed.
Lemma count_mono n : count n <= count (S n).
Proof. apply (filter_grows (fun kv => okv n (fst kv)) (fun kv => okv (S n) (fst kv)) vars). intros x. apply okv_mono. lia. Qed.
Lemma stable_from m : (forall k, okv m k = okv (S m) k) -> forall j k, m <= j -> okv j k = okv m k.
Proof.
  intros H j. induction j as [|j IH]; intros k Hj; [replace m with 0 by lia; reflexivity|]. destruct (Nat.eq_dec m (S j)) as [->|Hne]; [reflexivity|].
  assert (Hm : m <= j) by lia. rewrite H. apply okv_step. intros k'. now apply IH.
Qed.
Lemma stable_exists : exists m, m <= length vars /\ forall k, okv m k = okv (S m) k.
Proof.
  assert (G : forall n, (exists m, m < n /\ forall k, okv m k = okv (S m) k) \/ n <= count n).
  { induction n as [|n [(m & Hm & H)|IH]]; [right; lia|left; exists m; split; [lia|exact H]|]. destruct (Nat.eq_dec (count n) (count (S n))) as [E|E].
    - left. exists n. split; [lia|]. now apply count_same.
    - right. pose proof (count_mono n). lia. }
  destruct (G (S (length vars))) as [(m & Hm & H)|H]; [exists m; split; [lia|exact H]|]. pose proof (count_le (S (length vars))). lia.
Qed.
Theorem flat_bound n l r : flat n l = Some r -> flat (S (length vars)) l = Some r.
Proof.
  intros H. destruct stable_exists as (m & Hm & Hs). destruct (Nat.le_gt_cases n (S (length vars))) as [L|L]; [now apply (flat_mono n)|].
  destruct n as [|n]; [lia|]. assert (E : some (flat (S n) l) = some (flat (S (length vars)) l)).
  { apply flat_okv. intros k. rewrite (stable_from m Hs n k) by lia. rewrite (stable_from m Hs (length vars) k) by lia. reflexivity. }
  rewrite H in E. destruct (flat (S (length vars)) l) as [r'|] eqn:E'; [|discriminate]. rewrite (flat_mono (S (length vars)) (S n) l r' ltac:(lia) E') in H. congruence.
Qed.
Theorem flat_iff l r : flat (S (length vars)) l = Some r <-> expands vars l r.
Proof. split; [apply flat_expands|]. intros H. apply expands_flat in H. destruct H as (n & H). now apply flat_bound in H. Qed.

(** ** the functions of a list, one after the other *)
Section One.
Variables (name orig line : str).
Notation around := (VariableFacts.around line).
Notation applied := (VariableFacts.applied name orig line).
Definition run (f : nat) (l : list called) (st : vstate) : res vstate := rfold (fun st c => extract vars name orig line f (fst c) st (snd c)) l st.
Lemma last_action_app l l' : last_action name (l ++ l') = match last_action name l' with Some x => Some x | None => last_action name l end.
Proof. induction l as [|c l IH]; cbn [app last_action]; [now destruct (last_action name l')|]. rewrite IH. now destruct (last_action name l'). Qed.
Lemma has_app n l l' : has n (l ++ l') = (has n l || has n l')%bool.
Proof. unfold has, in_strs. rewrite map_app. apply existsb_app. Qed.
Lemma applied_app st es fs rs d es' fs' rs' d' : applied (applied st es fs rs d) es' fs' rs' d' =
  applied st (es ++ es') (fs ++ fs') (rs ++ rs') (match d' with Some v => Some v | None => d end).
Proof.
  unfold VariableFacts.applied. cbn [v_funcs v_action v_isline v_skipvar v_skipre v_res v_defaults]. rewrite last_action_app, !has_app, !app_assoc, !Bool.orb_assoc.
  assert (E : (v_skipre st || has "set" es && str_eqb around [] || has "set" es' && str_eqb around [])%bool = (v_skipre st || (has "set" es || has "set" es') && str_eqb around [])%bool) by (rewrite Bool.andb_orb_distrib_l, Bool.orb_assoc; reflexivity). rewrite E.
  f_equal; [now destruct (last_action name es')|]. destruct d' as [v|]; [|reflexivity]. destruct d as [w|]; cbn [with_default]; [apply dset_dset|reflexivity].
Qed.
Lemma applied_nil st : applied st [] [] [] None = st.
Proof. unfold VariableFacts.applied. destruct st. cbn. now rewrite !app_nil_r, !Bool.orb_false_r. Qed.
Lemma do_all_app l fs rs d l' fs' rs' d' : do_all vars orig around l fs rs d -> do_all vars orig around l' fs' rs' d' -> do_all vars orig around (l ++ l') (fs ++ fs') (rs ++ rs') (match d' with Some v => Some v | None => d end).
Proof.
  intros H H'. induction H as [|c l fs rs d fs2 rs2 d2 Hc H IH]; cbn [app]; [now destruct d'|]. rewrite <- !app_assoc.
  replace (match d' with Some v => Some v | None => match d2 with Some v => Some v | None => d end end) with (match (match d' with Some v => Some v | None => d2 end) with Some v => Some v | None => d end) by (destruct d'; reflexivity). now constructor.
Qed.
Lemma run_cons f c l st : run f (c :: l) st = do st1 <- extract vars name orig line f (fst c) st (snd c); run f l st1.
Proof. reflexivity. Qed.
Lemma rfold_own f l st : rfold (fun st a => extract vars name orig line f (at_name a) st a) l st = run f (map by_own_name l) st.
Proof. revert st. induction l as [|a l IH]; intros st; [reflexivity|]. cbn [rfold map]. rewrite run_cons. cbn [by_own_name fst snd]. destruct (extract vars name orig line f (at_name a) st a); cbn [rbind]; [apply IH|reflexivity]. Qed.
(** a chain *)
Lemma chain_step f st a : extract vars name orig line (S f) (t_ "chain") st a =
  match at_args a with
  | [] => Raise IndexError
  | v :: _ => do x <- get_any vars v; match x with None | Some VNone => Ok st | Some c => do l <- chain_texts c; run f (map by_own_name l) st end
  end.
Proof.
  rewrite extract_eq. destruct (at_args a) as [|v args]; [reflexivity|]. destruct (get_any vars v) as [[x|]|]; try reflexivity. 
  assert (E : forall c, (do l <- chain_texts c; rfold (fun st a => extract vars name orig line f (at_name a) st a) l st) = (do l <- chain_texts c; run f (map by_own_name l) st)).
  { intros c. destruct (chain_texts c); [apply rfold_own|reflexivity]. }
  destruct x; try reflexivity; apply E.
Qed.
(** written out in [n] steps *)
Lemma run_sound : forall f l st st', run f l st = Ok st' -> exists es fs rs d, flat f l = Some es /\ do_all vars orig around es fs rs d /\ st' = applied st es fs rs d.
Proof.
  induction f as [|f IHf]; induction l as [|[k a] l IHl]; intros st st' H.
  - injection H as <-. exists [], [], [], None. split; [reflexivity|]. split; [constructor|]. symmetry. apply applied_nil.
  - rewrite run_cons in H. discriminate.
  - injection H as <-. exists [], [], [], None. split; [reflexivity|]. split; [constructor|]. symmetry. apply applied_nil.
  - rewrite run_cons in H. cbn [fst snd] in H. destruct (extract vars name orig line (S f) k st a) as [st1|] eqn:E1; [|discriminate]. cbn [rbind] in H. apply IHl in H. destruct H as (es & fs & rs & d & H1 & H2 & ->).
    rewrite flat_cons, H1. unfold flat_one. cbn [fst snd]. destruct (str_eqb k (t_ "chain")) eqn:Ek.
    + apply str_eqb_eq in Ek. subst k. rewrite chain_step in E1. unfold chain_value. destruct (at_args a) as [|v args]; [discriminate|]. destruct (get_any vars v) as [[x|]|]; try discriminate; cbn [rbind] in E1.
      * assert (D : x = VNone \/ x <> VNone) by (destruct x; [now left|right; discriminate..]). destruct D as [->|Hx]; [injection E1 as <-; exists es, fs, rs, d; auto|].
        assert (K : (do l <- chain_texts x; run f (map by_own_name l) st) = Ok st1) by (destruct x; congruence). clear E1. destruct (chain_texts x) as [gs|] eqn:Eg; [|discriminate]. cbn [rbind] in K. apply IHf in K. destruct K as (es0 & fs0 & rs0 & d0 & K1 & K2 & ->).
        exists (es0 ++ es), (fs0 ++ fs), (rs0 ++ rs), (match d with Some v => Some v | None => d0 end). split; [destruct x; try congruence; rewrite ?Eg; now rewrite K1|]. split; [now apply do_all_app|apply applied_app].
      * injection E1 as <-. exists es, fs, rs, d. auto.
    + assert (Hk : k <> t_ "chain") by (intros ->; rewrite str_eqb_refl in Ek; discriminate). apply step_sound in E1; [|exact Hk]. destruct E1 as (fs0 & rs0 & d0 & K & ->). exists ((k, a) :: es), (fs0 ++ fs), (rs0 ++ rs), (match d with Some v => Some v | None => d0 end). split; [reflexivity|]. split; [now constructor|].
      rewrite applied_app. reflexivity.
Qed.
Lemma run_app f l l' st : run f (l ++ l') st = do st1 <- run f l st; run f l' st1.
Proof. revert st. induction l as [|c l IH]; intros st; [reflexivity|]. cbn [app]. rewrite !run_cons. destruct (extract vars name orig line f (fst c) st (snd c)); cbn [rbind]; [apply IH|reflexivity]. Qed.
Lemma do_all_split l1 l2 fs rs d : do_all vars orig around (l1 ++ l2) fs rs d -> exists fs1 rs1 d1 fs2 rs2 d2, do_all vars orig around l1 fs1 rs1 d1 /\ do_all vars orig around l2 fs2 rs2 d2 /\ fs = fs1 ++ fs2 /\ rs = rs1 ++ rs2 /\ d = match d2 with Some v => Some v | None => d1 end.
Proof.
  revert fs rs d. induction l1 as [|c l1 IH]; intros fs rs d H; cbn [app] in H.
  - exists [], [], None, fs, rs, d. split; [constructor|]. split; [exact H|]. repeat split. now destruct d.
  - inversion H as [|c' l fs0 rs0 d0 fs' rs' d' Hc Hl]; subst. apply IH in Hl. destruct Hl as (fs1 & rs1 & d1 & fs2 & rs2 & d2 & H1 & H2 & -> & -> & ->).
    exists (fs0 ++ fs1), (rs0 ++ rs1), (match d1 with Some v => Some v | None => d0 end), fs2, rs2, d2. split; [now constructor|]. split; [exact H2|]. rewrite !app_assoc. repeat split. now destruct d2.
Qed.
Lemma run_complete : forall f l es fs rs d st, flat f l = Some es -> do_all vars orig around es fs rs d -> run (S f) l st = Ok (applied st es fs rs d).
Proof.
  induction f as [|f IHf]; induction l as [|[k a] l IHl]; intros es fs rs d st H Hd;
    try (rewrite flat_nil in H; injection H as <-; inversion Hd; subst; rewrite applied_nil; reflexivity);
    rewrite flat_cons in H; destruct (flat_one _ (k, a)) as [e|] eqn:E1; try discriminate; destruct (flat _ l) as [r|] eqn:E2; try discriminate; injection H as <-;
    apply do_all_split in Hd; destruct Hd as (fs1 & rs1 & d1 & fs2 & rs2 & d2 & H1 & H2 & -> & -> & ->); rewrite <- applied_app, run_cons; cbn [fst snd];
    unfold flat_one in E1; cbn [fst snd] in E1; destruct (str_eqb k (t_ "chain")) eqn:Ek.
  - apply str_eqb_eq in Ek. subst k. rewrite chain_step. unfold chain_value in E1. destruct (at_args a) as [|v args]; [discriminate|]. destruct (get_any vars v) as [[x|]|]; try discriminate; cbn [rbind].
    + destruct x; try (destruct (chain_texts _); discriminate). injection E1 as <-. inversion H1; subst. rewrite applied_nil. cbn [rbind]. now apply IHl.
    + injection E1 as <-. inversion H1; subst. rewrite applied_nil. now apply IHl.
  - injection E1 as <-. inversion H1 as [|c' l' fs0 rs0 d0 fs' rs' d' Hc Hl]; subst. inversion Hl; subst. rewrite !app_nil_r. rewrite (step_complete vars name orig line 0 k a st fs0 rs0 d0 Hc). cbn [rbind]. now apply IHl.
  - apply str_eqb_eq in Ek. subst k. rewrite chain_step. unfold chain_value in E1. destruct (at_args a) as [|v args]; [discriminate|]. destruct (get_any vars v) as [[x|]|]; try discriminate; cbn [rbind].
    + assert (D : x = VNone \/ x <> VNone) by (destruct x; [now left|right; discriminate..]). destruct D as [->|Hx]; [injection E1 as <-; inversion H1; subst; rewrite applied_nil; cbn [rbind]; now apply IHl|].
      assert (K : match chain_texts x with Ok fs => flat f (map by_own_name fs) | Raise _ => None end = Some e) by (destruct x; try congruence; destruct (chain_texts _); congruence). destruct (chain_texts x) as [gs|] eqn:Eg; [|discriminate].
      assert (K2 : match x with VNone => Ok st | _ => do l0 <- Ok gs; run (S f) (map by_own_name l0) st end = Ok (applied st e fs1 rs1 d1)) by (destruct x; try congruence; cbn [rbind]; apply (IHf _ _ _ _ _ _ K H1)).
      rewrite K2. cbn [rbind]. now apply IHl.
    + injection E1 as <-. inversion H1; subst. rewrite applied_nil. now apply IHl.
  - injection E1 as <-. inversion H1 as [|c' l' fs0 rs0 d0 fs' rs' d' Hc Hl]; subst. inversion Hl; subst. rewrite !app_nil_r. rewrite (step_complete vars name orig line (S f) k a st fs0 rs0 d0 Hc). cbn [rbind]. now apply IHl.
Qed.
Theorem run_iff l st st' : run (S (S (length vars))) l st = Ok st' <-> exists es fs rs d, expands vars l es /\ do_all vars orig around es fs rs d /\ st' = applied st es fs rs d.
Proof.
  split.
  - intros H. apply run_sound in H. destruct H as (es & fs & rs & d & H1 & H2 & H3). exists es, fs, rs, d. split; [now apply flat_expands in H1|auto].
  - intros (es & fs & rs & d & H1 & H2 & ->). apply flat_iff in H1. now apply run_complete.
Qed.
End One.
End Chains.

(** ** the variable *)
Lemma special_eq n : in_strs n special_names = in_strs n (map t_ own_meaning).
Proof.
  assert (G : forall l l' : list str, (forall x, In x l <-> In x l') -> in_strs n l = in_strs n l').
  { intros l l' H. destruct (in_strs n l) eqn:E, (in_strs n l') eqn:E'; try reflexivity.
    - apply in_strs_In in E. apply H in E. apply in_strs_In in E. congruence.
    - apply in_strs_In in E'. apply H in E'. apply in_strs_In in E'. congruence. }
  apply G. intros x. unfold special_names. rewrite from_vars_eq. unfold own_meaning. rewrite !map_app. unfold marks. cbn [map].
  rewrite !in_app_iff. cbn [In]. unfold t_. tauto.
Qed.
Theorem variable_iff vars gdefault text line defaults v : new_variable vars gdefault text line defaults = Ok v <-> is_variable vars gdefault text line defaults v.
Proof.
  unfold new_variable, is_variable.
  assert (Ed : forall orig, match gdefault with
                | Some g => match dget defaults (KS orig) with
                            | None => if in_strs orig no_default then defaults else dset defaults (KS orig) (VStr g)
                            | Some _ => defaults
                            end
                | None => defaults
                end = group_default gdefault orig defaults).
  { intros orig. unfold group_default. rewrite no_default_eq. destruct gdefault as [g|]; [|reflexivity]. destruct (dget defaults (KS orig)); [now rewrite Bool.orb_true_r|]. now rewrite Bool.orb_false_r. }
  assert (G : forall a attrs (K : vstate -> res varobj), 
    (do st1 <- (if in_strs (sanitize (at_name a)) special_names then extract vars (sanitize (at_name a)) (at_name a) line (S (S (length vars))) (sanitize (at_name a)) {| v_funcs := []; v_action := AAdd; v_isline := false; v_skipvar := false; v_skipre := false; v_res := []; v_defaults := group_default gdefault (at_name a) defaults |} a else Ok {| v_funcs := []; v_action := AAdd; v_isline := false; v_skipvar := false; v_skipre := false; v_res := []; v_defaults := group_default gdefault (at_name a) defaults |});
     do st2 <- rfold (fun st x => extract vars (sanitize (at_name a)) (at_name a) line (S (S (length vars))) (at_name x) st x) attrs st1; K st2) =
    do st2 <- run vars (sanitize (at_name a)) (at_name a) line (S (S (length vars))) (own_call a ++ map by_own_name attrs) {| v_funcs := []; v_action := AAdd; v_isline := false; v_skipvar := false; v_skipre := false; v_res := []; v_defaults := group_default gdefault (at_name a) defaults |}; K st2).
  { intros a attrs K. rewrite run_app. unfold own_call. rewrite special_eq. destruct (in_strs (sanitize (at_name a)) (map t_ own_meaning)).
    - rewrite run_cons. cbn [fst snd]. set (x := extract _ _ _ _ _ _ _ _). destruct x as [st1|]; cbn [rbind]; [|reflexivity]. rewrite rfold_own. reflexivity.
    - cbn [rbind run rfold]. rewrite rfold_own. reflexivity. }
  destruct (get_attributes text) as [[|a attrs]|] eqn:Et; cbn [rbind].
  - split; [discriminate|]. intros (a & attrs & es & fs & rs & d & K & _). discriminate.
  - cbv zeta. rewrite Ed, G. clear G Ed. destruct (run vars _ _ line _ _ _) as [st|] eqn:Er; cbn [rbind].
    + apply run_iff in Er. destruct Er as (es & fs & rs & d & H1 & H2 & ->). split.
      * intros H. injection H as <-. exists a, attrs, es, fs, rs, d. split; [reflexivity|]. split; [exact H1|]. split; [exact H2|]. reflexivity.
      * intros (a' & attrs' & es' & fs' & rs' & d' & K & K1 & K2 & ->). injection K as <- <-.
        assert (R : run vars (sanitize (at_name a)) (at_name a) line (S (S (length vars))) (own_call a ++ map by_own_name attrs) {| v_funcs := []; v_action := AAdd; v_isline := false; v_skipvar := false; v_skipre := false; v_res := []; v_defaults := group_default gdefault (at_name a) defaults |} = Ok (applied (sanitize (at_name a)) (at_name a) line {| v_funcs := []; v_action := AAdd; v_isline := false; v_skipvar := false; v_skipre := false; v_res := []; v_defaults := group_default gdefault (at_name a) defaults |} es' fs' rs' d')) by (apply run_iff; exists es', fs', rs', d'; auto).
        assert (R2 : run vars (sanitize (at_name a)) (at_name a) line (S (S (length vars))) (own_call a ++ map by_own_name attrs) {| v_funcs := []; v_action := AAdd; v_isline := false; v_skipvar := false; v_skipre := false; v_res := []; v_defaults := group_default gdefault (at_name a) defaults |} = Ok (applied (sanitize (at_name a)) (at_name a) line {| v_funcs := []; v_action := AAdd; v_isline := false; v_skipvar := false; v_skipre := false; v_res := []; v_defaults := group_default gdefault (at_name a) defaults |} es fs rs d)) by (apply run_iff; exists es, fs, rs, d; auto).
        rewrite R in R2. assert (E : applied (sanitize (at_name a)) (at_name a) line {| v_funcs := []; v_action := AAdd; v_isline := false; v_skipvar := false; v_skipre := false; v_res := []; v_defaults := group_default gdefault (at_name a) defaults |} es' fs' rs' d' = applied (sanitize (at_name a)) (at_name a) line {| v_funcs := []; v_action := AAdd; v_isline := false; v_skipvar := false; v_skipre := false; v_res := []; v_defaults := group_default gdefault (at_name a) defaults |} es fs rs d) by congruence.
        rewrite <- E. reflexivity.
    + split; [discriminate|]. intros (a' & attrs' & es' & fs' & rs' & d' & K & K1 & K2 & ->). injection K as <- <-. exfalso.
      assert (R : run vars (sanitize (at_name a)) (at_name a) line (S (S (length vars))) (own_call a ++ map by_own_name attrs) {| v_funcs := []; v_action := AAdd; v_isline := false; v_skipvar := false; v_skipre := false; v_res := []; v_defaults := group_default gdefault (at_name a) defaults |} = Ok (applied (sanitize (at_name a)) (at_name a) line {| v_funcs := []; v_action := AAdd; v_isline := false; v_skipvar := false; v_skipre := false; v_res := []; v_defaults := group_default gdefault (at_name a) defaults |} es' fs' rs' d')) by (apply run_iff; exists es', fs', rs', d'; auto). congruence.
  - split; [discriminate|]. intros (a & attrs & es & fs & rs & d & K & _). discriminate.
Qed.
