(** * CallFacts: proofs for C124. *)
From Coq Require Import Lia.
From Verif Require Import PyBase DictFacts StrFacts Regex Results Template Attributes FormRegex MatchFuncs GroupFuncs Parser FuncTable SessionFacts SpecVariable SpecCalls.
Local Open Scope string_scope.
Local Open Scope list_scope.

(** ** binding *)
Lemma match_signatures macros lookups templates results : map (fun e => (fst e, fst (snd e))) (match_table macros lookups templates results) = map read_def match_defs.
Proof. vm_compute. reflexivity. Qed.
Lemma group_signatures macros lookups templates main results k2i : map (fun e => (fst e, fst (snd e))) (group_table macros lookups templates main results k2i) = map read_def group_defs.
Proof. vm_compute. reflexivity. Qed.

Lemma params_iff ps : forall args kws l r, bind_params ps args kws = Ok (l, r) <->
  (forall n, In n (map fst (firstn (length args) ps)) -> dget kws (KS n) = None) /\
  (exists rest, Forall2 (fun p v => dget kws (KS (fst p)) = Some v \/ dget kws (KS (fst p)) = None /\ snd p = Some v) (skipn (length args) ps) rest /\ l = firstn (length ps) args ++ rest) /\ r = skipn (length ps) args.
Proof.
  induction ps as [|[n dflt] ps IH]; intros args kws l r; cbn [bind_params].
  - rewrite firstn_nil, skipn_nil. cbn [map In length firstn skipn]. split.
    + intros E. injection E as <- <-. split; [intros n []|]. split; [exists []; split; [constructor|reflexivity]|reflexivity].
    + intros (_ & (rest & H & ->) & ->). inversion H; subst. reflexivity.
  - unfold kw. destruct args as [|a args].
    + cbn [length firstn skipn map In]. split.
      * intros E. split; [intros m []|]. destruct (dget kws (KS n)) as [v|] eqn:Ek; [|destruct dflt as [v|]; [|discriminate]].
        all: destruct (bind_params ps [] kws) as [[l1 r1]|] eqn:Eb; [|discriminate]; cbn [rbind] in E; injection E as <- <-; apply IH in Eb as (_ & (rest & H & ->) & ->); cbn [length skipn] in H; split; [|now rewrite ?skipn_nil]; exists (v :: rest); split; [|now rewrite ?firstn_nil]; constructor; [cbn [fst snd]; auto|exact H].
      * intros (_ & (rest & H & ->) & ->). inversion H as [|? v ? rest' Hv Hr]; subst. cbn [fst snd] in Hv.
        assert (E : bind_params ps [] kws = Ok (rest', [])). { apply IH. cbn [length firstn skipn map In]. split; [intros m []|]. split; [exists rest'; split; [exact Hr|now rewrite firstn_nil]|now rewrite skipn_nil]. }
        rewrite ?firstn_nil, ?skipn_nil. destruct Hv as [Hv|[Hv Hd]]; rewrite Hv; [now rewrite E|]. rewrite Hd, E. reflexivity.
    + cbn [length firstn skipn map In fst]. split.
      * destruct (dget kws (KS n)) as [v|] eqn:Ek; [discriminate|]. destruct (bind_params ps args kws) as [[l1 r1]|] eqn:Eb; [|discriminate]. cbn [rbind]. intros E. injection E as <- <-. apply IH in Eb as (H1 & (rest & H & ->) & ->).
        split; [intros m [<-|Hm]; [exact Ek|now apply H1]|]. split; [exists rest; split; [exact H|reflexivity]|reflexivity].
      * intros (H1 & (rest & H & ->) & ->). rewrite (H1 n (or_introl eq_refl)).
        assert (E : bind_params ps args kws = Ok (firstn (length ps) args ++ rest, skipn (length ps) args)) by (apply IH; split; [intros m Hm; apply H1; now right|]; split; [now exists rest|reflexivity]).
        now rewrite E.
Qed.
Lemma dmem_in (d : dict) k : dget d k <> None <-> In k (map fst d).
Proof.
  induction d as [|[j v] d IH]; cbn [dget map fst In]; [split; [congruence|intros []]|]. destruct (key_eqb k j) eqn:E.
  - apply key_eqb_eq in E. subst j. split; [now left|discriminate].
  - rewrite IH. split; [now right|]. intros [->|K]; [rewrite key_eqb_refl in E; discriminate|exact K].
Qed.
Lemma kwonly_iff (l : list (str * val)) kws m : Forall2 (fun p v => dget kws (KS (fst p)) = Some v \/ dget kws (KS (fst p)) = None /\ snd p = v) l m <-> m = map (fun nd => match kw kws (fst nd) with Some v => v | None => snd nd end) l.
Proof.
  unfold kw. split.
  - induction 1 as [|[n d] v l m H _ IH]; [reflexivity|]. cbn [map fst snd] in *. rewrite <- IH. destruct H as [->|[-> ->]]; reflexivity.
  - intros ->. induction l as [|[n d] l IH]; cbn [map fst snd]; constructor; [|exact IH]. cbn [fst snd]. destruct (dget kws (KS n)); auto.
Qed.
Lemma known_iff s k : known_kw s k = true <-> exists n, k = KS n /\ (In n (map fst (sg_params s)) \/ In n (map fst (sg_kwonly s)) \/ sg_kwargs s = true /\ n <> t_ "data").
Proof.
  destruct k as [n|z|]; cbn [known_kw]; [|split; [discriminate|intros (n & K & _); discriminate]..].
  rewrite !Bool.orb_true_iff, Bool.andb_true_iff, Bool.negb_true_iff, !SessionFacts.in_strs_In. assert (E : str_eqb n $"data" = false <-> n <> t_ "data") by (rewrite str_eqb_neq; reflexivity). rewrite E. split.
  - intros K. exists n. split; [reflexivity|]. tauto.
  - intros (m & K & H). injection K as <-. tauto.
Qed.
Theorem bind_iff s args kws b : bind s args kws = Ok b <-> binds s args kws b.
Proof.
  unfold bind, binds. split.
  - destruct (forallb (fun kv => known_kw s (fst kv)) kws) eqn:Ek; cbn [negb]; [|discriminate]. destruct (bind_params (sg_params s) args kws) as [[l r]|] eqn:Eb; [|discriminate]. cbn [rbind]. intros E. apply params_iff in Eb as (H1 & (rest & H2 & Hl) & Hr).
    assert (K : b = {| b_params := l; b_star := r; b_kwonly := map (fun nd => match kw kws (fst nd) with Some v => v | None => snd nd end) (sg_kwonly s) |} /\ (r <> [] -> sg_star s = true)) by (destruct r; [injection E as <-; split; [reflexivity|congruence]|]; destruct (sg_star s); [|discriminate]; injection E as <-; now split).
    destruct K as [-> Hs]. cbn [b_params b_star b_kwonly]. split; [|split; [now exists rest|split; [exact Hr|split; [exact Hs|now apply kwonly_iff]]]].
    intros k Hk. apply dmem_in in Hk as Hi. apply in_map_iff in Hi as (kv & Hf & Hi). assert (Kn : known_kw s k = true) by (rewrite <- Hf; apply (proj1 (forallb_forall _ _) Ek kv Hi)). apply known_iff in Kn as (n & -> & Hn). exists n. split; [reflexivity|]. split; [|exact Hn]. intros K. now apply Hk, H1.
  - intros (H1 & (rest & H2 & Hl) & Hr & Hs & Hk). assert (Ek : forallb (fun kv => known_kw s (fst kv)) kws = true).
    { apply forallb_forall. intros [k v] Hi. apply known_iff. cbn [fst]. destruct (H1 k) as (n & -> & _ & Hn); [apply dmem_in; now apply (in_map fst) in Hi|]. now exists n. }
    rewrite Ek. cbn [negb]. assert (Eb : bind_params (sg_params s) args kws = Ok (b_params b, b_star b)).
    { apply params_iff. split; [|split; [now exists rest|exact Hr]]. intros n Hn. destruct (dget kws (KS n)) eqn:E; [|reflexivity]. destruct (H1 (KS n)) as (m & Em & Hm & _); [congruence|]. injection Em as <-. contradiction. }
    rewrite Eb. cbn [rbind]. apply kwonly_iff in Hk. destruct b as [b1 b2 b3]. cbn [b_params b_star b_kwonly] in *. rewrite <- Hk. destruct b2; [reflexivity|]. rewrite Hs; [reflexivity|discriminate].
Qed.
Lemma bound_length s args kws b : binds s args kws b -> length (b_params b) = length (sg_params s) /\ length (b_kwonly b) = length (sg_kwonly s).
Proof.
  intros (_ & (rest & H & ->) & _ & _ & Hk). assert (L : forall A B (R : A -> B -> Prop) l m, Forall2 R l m -> length l = length m) by (induction 1; cbn; congruence). apply L in H. apply L in Hk. rewrite app_length, firstn_length, <- H, skipn_length. split; [lia|now symmetry].
Qed.
(** an argument by its place or by its name *)
Lemma bind_error s args kws e : bind s args kws = Raise e -> e = TypeError.
Proof.
  assert (P : forall ps a e, bind_params ps a kws = Raise e -> e = TypeError).
  { induction ps as [|[n d] ps IH]; intros a e' H; [discriminate|]. cbn [bind_params] in H. destruct a as [|x a], (kw kws n) as [v|]; try congruence.
    - destruct (bind_params ps [] kws) as [[]|] eqn:E; [discriminate|]. cbn [rbind] in H. injection H as <-. eapply IH. exact E.
    - destruct d; [|congruence]. destruct (bind_params ps [] kws) as [[]|] eqn:E; [discriminate|]. cbn [rbind] in H. injection H as <-. eapply IH. exact E.
    - destruct (bind_params ps a kws) as [[]|] eqn:E; [discriminate|]. cbn [rbind] in H. injection H as <-. eapply IH. exact E. }
  unfold bind. destruct (negb _); [congruence|]. destruct (bind_params (sg_params s) args kws) as [[l r]|] eqn:E; cbn [rbind]; [|intros K; injection K as <-; eapply P; exact E]. destruct r; [discriminate|]. destruct (sg_star s); [discriminate|congruence].
Qed.
Theorem by_name s args kws b : length args <= length (sg_params s) -> NoDup (map fst (sg_params s) ++ map fst (sg_kwonly s)) -> binds s args kws b ->
  binds s [] (combine (map (fun p => KS (fst p)) (sg_params s)) args ++ kws) b.
Proof.
  intros Hl Hd0 H. assert (Hd : NoDup (map fst (sg_params s))) by (clear - Hd0; induction (map fst (sg_params s)) as [|x l IH]; [constructor|]; inversion Hd0; subst; constructor; [intros K; match goal with N : ~ In _ _ |- _ => apply N end; apply in_or_app; now left|now apply IH]). pose proof H as (H1 & (rest & H2 & Hb) & Hr & Hs & Hk). set (cs := combine (map (fun p => KS (fst p)) (sg_params s)) args).
  assert (Hc : forall n, In n (map fst (firstn (length args) (sg_params s))) <-> In (KS n) (map fst cs)).
  { unfold cs. clear - Hl. revert args Hl. induction (sg_params s) as [|[m d] ps IH]; intros [|a args] Hl n; cbn [map combine firstn length fst In] in *; try reflexivity; try lia. rewrite <- (IH args ltac:(lia) n). split; (intros [K|K]; [left; congruence|now right]). }
  assert (Hg : forall n, dget (cs ++ kws) (KS n) = match dget cs (KS n) with Some v => Some v | None => dget kws (KS n) end).
  { intros n. clear Hc. induction cs as [|[k v] l IH]; [reflexivity|]. cbn [app dget]. destruct (key_eqb (KS n) k); [reflexivity|exact IH]. }
  assert (Hn : forall n, ~ In n (map fst (firstn (length args) (sg_params s))) -> dget cs (KS n) = None) by (intros n K; destruct (dget cs (KS n)) eqn:E; [|reflexivity]; exfalso; apply K, Hc, dmem_in; congruence).
  unfold binds. cbn [length firstn skipn map]. split; [|split; [|split; [|split]]].
  - intros k Hk'. apply dmem_in in Hk'. rewrite map_app in Hk'. apply in_app_or in Hk' as [K|K].
    + assert (X : exists n, k = KS n) by (unfold cs in K; apply in_map_iff in K as ([k' v] & <- & K); apply in_combine_l in K; apply in_map_iff in K as (p & <- & _); now eexists). destruct X as [n ->]. exists n. split; [reflexivity|]. split; [tauto|]. left. apply Hc in K. rewrite <- (firstn_skipn (length args) (sg_params s)), map_app. apply in_or_app. now left.
    + apply dmem_in in K. destruct (H1 k K) as (n & -> & _ & Hn'). exists n. split; [reflexivity|]. split; [tauto|exact Hn'].
  - exists (b_params b). split; [|now rewrite firstn_nil]. rewrite Hb. rewrite (firstn_all2 args) by exact Hl. rewrite <- (firstn_skipn (length args) (sg_params s)) at 1. apply Forall2_app.
    + assert (Hx : Forall2 (fun p v => dget cs (KS (fst p)) = Some v) (firstn (length args) (sg_params s)) args).
      { unfold cs. clear - Hl Hd. revert args Hl. induction (sg_params s) as [|[m d] ps IH]; intros [|a args] Hl; cbn [map combine firstn length fst] in *; try (constructor; fail); try lia. inversion Hd as [|? ? Hm Hd']; subst. constructor; [cbn [fst dget]; now rewrite key_eqb_refl|].
        assert (Fn : forall p, In p (firstn (length args) ps) -> fst p <> m) by (intros p Hp K; apply Hm; rewrite <- K; apply in_map; rewrite <- (firstn_skipn (length args) ps); apply in_or_app; now left).
        specialize (IH Hd' args ltac:(lia)). set (c := combine (map (fun p : str * option val => KS (fst p)) ps) args) in *. clearbody c. revert IH Fn. generalize (firstn (length args) ps) as fps. intros fps IH Fn. clear Hl. induction IH as [|p v l l' Hp _ IH]; [apply Forall2_nil|apply Forall2_cons]; [|apply IH; intros q Hq; apply Fn; now right]. cbn [dget]. assert (D : KS (fst p) <> KS m) by (intros K; apply (Fn p (or_introl eq_refl)); congruence). destruct (key_eqb_spec (KS (fst p)) (KS m)); [contradiction|exact Hp]. }
      clearbody cs. clear - Hx Hg. induction Hx as [|p v l l' Hp _ IH]; [constructor|constructor]; [|exact IH]. left. rewrite Hg. now rewrite Hp.
    + assert (Fn : forall p, In p (skipn (length args) (sg_params s)) -> dget cs (KS (fst p)) = None).
      { intros p Hp. apply Hn. intros K. rewrite <- (firstn_skipn (length args) (sg_params s)), map_app in Hd. apply (in_map fst) in Hp. clear - Hd K Hp. induction (map fst (firstn (length args) (sg_params s))) as [|x l IH]; [exact K|]. inversion Hd; subst. destruct K as [->|K]; [|now apply IH]. match goal with N : ~ In _ _ |- _ => apply N end. apply in_or_app. now right. }
      clearbody cs. clear - H2 Hg Fn. induction H2 as [|p v l l' Hp _ IH]; [constructor|constructor]; [|apply IH; intros q Hq; apply Fn; now right]. rewrite Hg, (Fn p (or_introl eq_refl)). exact Hp.
  - rewrite skipn_nil. rewrite Hr. now apply skipn_all2.
  - exact Hs.
  - assert (Fn : forall p, In p (sg_kwonly s) -> dget cs (KS (fst p)) = None).
    { intros p Hp. apply Hn. intros K. assert (K' : In (fst p) (map fst (sg_params s))) by (rewrite <- (firstn_skipn (length args) (sg_params s)), map_app; apply in_or_app; now left). apply (in_map fst) in Hp. clear - Hd0 K' Hp. induction (map fst (sg_params s)) as [|x l IH]; [exact K'|]. inversion Hd0; subst. destruct K' as [->|K]; [|now apply IH]. match goal with N : ~ In _ _ |- _ => apply N end. apply in_or_app. now right. }
    clearbody cs. clear - Hk Hg Fn. induction Hk as [|p v l l' Hp _ IH]; [constructor|constructor]; [|apply IH; intros q Hq; apply Fn; now right]. rewrite Hg, (Fn p (or_introl eq_refl)). exact Hp.
Qed.
