(** * GrammarFacts2: the arguments of a call and the items of a line (for C120). *)
From Coq Require Import Lia.
From Verif Require Import PyBase DictFacts ResultsFacts StrFacts Regex SpecRegex RegexFacts LitFacts Attributes AttrFacts SpecAttr LexFacts LexFacts2 GrammarFacts.
Local Open Scope string_scope.
Local Open Scope list_scope.

(** ** arguments *)
Definition named (ts : list token) : option (str * list token) :=
  match ts with TName n :: r => match opens "=" r with Some t => Some (n, t) | None => None end | _ => None end.
Lemma named_iff ts n t : named ts = Some (n, t) <-> ts = TName n :: TOp "="%char :: t.
Proof.
  unfold named. destruct ts as [|[m| | |] r]; split; intros H; try discriminate.
  - destruct (opens "=" r) as [t'|] eqn:E; [|discriminate]. apply opens_iff in E. subst r. now injection H as -> ->.
  - injection H as -> ->. now rewrite opens_same.
Qed.
Definition next_arg (f : nat) (a : call_args) (r : list token) : option call_args :=
  match r with [] => Some a | _ => match opens "," r with Some r' => arguments f r' a | None => None end end.
Lemma next_eq f a r : match r with [] => Some a | t :: r' => if is_op "," t then arguments f r' a else None end = next_arg f a r.
Proof. destruct r as [|[| | |d] r]; cbn [next_arg opens is_op]; try reflexivity. rewrite (Ascii.eqb_sym "," d). now destruct (Ascii.eqb d ","). Qed.
Lemma arguments_eq f ts a : arguments (S f) ts a =
  match ts with
  | [] => Some a
  | _ => match named ts with
    | Some (n, t) =>
        if (existsb (str_eqb n) ([$"True"; $"False"; $"None"] ++ keywords) || match dget (ca_kwargs a) (KS n) with Some _ => true | None => false end)%bool then None
        else match expr (S (4 * length t)) t with
             | Some (v, r) => next_arg f {| ca_args := ca_args a; ca_kwargs := dset (ca_kwargs a) (KS n) v |} r
             | None => None
             end
    | None =>
        if nonempty (ca_kwargs a) then None
        else match expr (S (4 * length ts)) ts with
             | Some (v, r) => next_arg f {| ca_args := ca_args a ++ [v]; ca_kwargs := ca_kwargs a |} r
             | None => None
             end
    end
  end.
Proof.
  assert (D : forall ts, ts <> [] -> named ts = None -> arguments (S f) ts a = if nonempty (ca_kwargs a) then None
        else match expr (S (4 * length ts)) ts with
             | Some (v, r) => next_arg f {| ca_args := ca_args a ++ [v]; ca_kwargs := ca_kwargs a |} r
             | None => None
             end).
  { clear ts. intros ts Hne Hn. 
    assert (E : forall w : list token, w = ts -> match expr (S (4 * length w)) w with
             | Some (v, r) => match r with [] => Some {| ca_args := ca_args a ++ [v]; ca_kwargs := ca_kwargs a |} | t :: r' => if is_op "," t then arguments f r' {| ca_args := ca_args a ++ [v]; ca_kwargs := ca_kwargs a |} else None end
             | None => None end = match expr (S (4 * length ts)) ts with
             | Some (v, r) => next_arg f {| ca_args := ca_args a ++ [v]; ca_kwargs := ca_kwargs a |} r
             | None => None
             end).
    { intros w ->. destruct (expr (S (4 * length ts)) ts) as [[v r]|]; [apply next_eq|reflexivity]. }
    destruct ts as [|t ts]; [congruence|]. rewrite <- (E _ eq_refl). clear E.
    destruct t as [n| | |]; try reflexivity. destruct ts as [|[| | |d] ts]; try reflexivity. cbn [named opens] in Hn. destruct (Ascii.eqb_spec d "=") as [->|Hd]; [discriminate|].
    destruct d as [[][][][][][][][]]; try reflexivity. now contradiction Hd. }
  destruct ts as [|t ts]; [reflexivity|]. destruct (named (t :: ts)) as [[n u]|] eqn:E.
  - apply named_iff in E. rewrite E. cbn [arguments]. destruct (_ || _)%bool; [reflexivity|]. destruct (expr (S (4 * length u)) u) as [[v r]|]; [apply next_eq|reflexivity].
  - now apply D.
Qed.
(** the reserved names *)
Definition name_free (n : str) : Prop := ~ word_in n reserved /\ ~ word_in n ["True"; "False"; "None"].
Lemma free_iff n : existsb (str_eqb n) ([$"True"; $"False"; $"None"] ++ keywords) = false <-> name_free n.
Proof.
  unfold name_free, word_in. rewrite <- keywords_eq. change (map list_ascii_of_string ["True"; "False"; "None"]) with [$"True"; $"False"; $"None"].
  destruct (existsb (str_eqb n) ([$"True"; $"False"; $"None"] ++ keywords)) eqn:E.
  - apply in_words in E. apply in_app_or in E. split; [discriminate|tauto].
  - assert (K : ~ In n ([$"True"; $"False"; $"None"] ++ keywords)) by (intros K; apply in_words in K; congruence). split; [intros _|reflexivity]. split; intros K'; apply K; apply in_or_app; tauto.
Qed.
Definition new_names (d : dict) (ks : list (str * val)) : Prop := NoDup (map fst ks) /\ Forall name_free (map fst ks) /\ Forall (fun n => dget d (KS n) = None) (map fst ks).
Lemma by_name_dget (d : dict) (ks : key) n (v : val) : dget d (KS n) = None -> dget (d ++ [(KS n, v)]) ks = match dget d ks with Some x => Some x | None => if key_eqb ks (KS n) then Some v else None end.
Proof. intros _. induction d as [|[k x] d IH]; [reflexivity|]. cbn [app dget]. destruct (key_eqb ks k); [reflexivity|exact IH]. Qed.
Lemma new_names_cons (d : dict) n v ks : dget d (KS n) = None -> name_free n -> (new_names d ((n, v) :: ks) <-> new_names (d ++ [(KS n, v)]) ks /\ ~ In n (map fst ks)).
Proof.
  intros Hd Hf. unfold new_names. cbn [map fst]. split.
  - intros (H1 & H2 & H3). inversion H1 as [|? ? Hn H1']; subst. inversion H2 as [|? ? _ H2']; subst. inversion H3 as [|? ? _ H3']; subst. split; [|exact Hn]. split; [exact H1'|]. split; [exact H2'|].
    rewrite Forall_forall in *. intros m Hm. rewrite by_name_dget by exact Hd. rewrite (H3' m Hm). destruct (key_eqb (KS m) (KS n)) eqn:E; [|reflexivity].
    apply key_eqb_eq in E. injection E as ->. contradiction.
  - intros ((H1 & H2 & H3) & Hn). split; [now constructor|]. split; [now constructor|]. constructor; [exact Hd|]. rewrite Forall_forall in *. intros m Hm. specialize (H3 m Hm). rewrite by_name_dget in H3 by exact Hd. destruct (dget d (KS m)); [discriminate|reflexivity].
Qed.
Lemma new_notin (d : dict) n v ks : new_names (d ++ [(KS n, v)]) ks -> dget d (KS n) = None -> ~ In n (map fst ks).
Proof. intros (_ & _ & H) Hd K. rewrite Forall_forall in H. specialize (H n K). rewrite by_name_dget in H by exact Hd. rewrite Hd, key_eqb_refl in H. discriminate. Qed.
Lemma expr_sound f ts v r : expr f ts = Some (v, r) -> exists p, ts = p ++ r /\ denotes p v.
Proof. apply (proj1 (grammar_sound f)). Qed.
Lemma expr_complete ts v r f : denotes ts v -> 3 * length ts <= f -> not_text r -> expr f (ts ++ r) = Some (v, r).
Proof. intros H Hf Hr. now apply (proj1 grammar_complete). Qed.

Lemma arguments_sound : forall f ts a b, arguments f ts a = Some b -> exists vs ks, supplies ts vs ks /\ new_names (ca_kwargs a) ks /\ (ca_kwargs a <> [] -> vs = []) /\
  b = {| ca_args := ca_args a ++ vs; ca_kwargs := ca_kwargs a ++ by_name ks |}.
Proof.
  induction f as [|f IH]; [discriminate|]. intros ts a b H. rewrite arguments_eq in H. destruct ts as [|t ts].
  { injection H as <-. exists [], []. split; [constructor|]. split; [repeat split; constructor|]. split; [reflexivity|]. cbn [by_name map]. rewrite !app_nil_r. now destruct a. }
  set (w := t :: ts) in *. clearbody w. clear t ts. destruct (named w) as [[n t]|] eqn:En.
  - apply named_iff in En. subst w. destruct (existsb (str_eqb n) ([$"True"; $"False"; $"None"] ++ keywords)) eqn:Ek; [discriminate|]. cbn [orb] in H. apply free_iff in Ek.
    destruct (dget (ca_kwargs a) (KS n)) eqn:Ed; [discriminate|]. destruct (expr (S (4 * length t)) t) as [[v r]|] eqn:Ee; [|discriminate]. apply expr_sound in Ee. destruct Ee as (p & -> & Hp).
    unfold next_arg in H. destruct r as [|r0 r].
    + injection H as <-. exists [], [(n, v)]. rewrite app_nil_r. split; [now apply su_named|]. split; [|split; [reflexivity|]].
      * split; [cbn [map fst]; constructor; [intros []|constructor]|]. split; [cbn [map fst]; constructor; [exact Ek|constructor]|]. cbn [map fst]. constructor; [exact Ed|constructor].
      * rewrite app_nil_r. cbn [by_name map fst snd]. now rewrite (dset_fresh _ _ _ Ed).
    + destruct (opens "," (r0 :: r)) as [r'|] eqn:Eo; [|discriminate]. apply opens_iff in Eo. rewrite Eo. apply IH in H. cbn [ca_args ca_kwargs] in H.
      destruct H as (vs & ks & H1 & H2 & H3 & ->). rewrite (dset_fresh _ _ _ Ed) in *. rewrite H3 in * by (destruct (ca_kwargs a); discriminate).
      exists [], ((n, v) :: ks). split; [now apply su_named_more|]. split; [apply new_names_cons; [exact Ed|exact Ek|]; split; [exact H2|now apply (new_notin _ _ _ _ H2)]|]. split; [reflexivity|].
      cbn [by_name map fst snd]. f_equal. now rewrite <- app_assoc.
  - destruct (nonempty (ca_kwargs a)) eqn:Ene; [discriminate|]. assert (Ea : ca_kwargs a = []) by (destruct (ca_kwargs a); [reflexivity|discriminate]).
    destruct (expr (S (4 * length w)) w) as [[v r]|] eqn:Ee; [|discriminate]. apply expr_sound in Ee. destruct Ee as (p & -> & Hp).
    unfold next_arg in H. destruct r as [|r0 r].
    + injection H as <-. exists [v], []. rewrite !app_nil_r. split; [now apply su_one|]. split; [repeat split; constructor|]. split; [congruence|]. cbn [by_name map]. rewrite ?app_nil_r. reflexivity.
    + destruct (opens "," (r0 :: r)) as [r'|] eqn:Eo; [|discriminate]. apply opens_iff in Eo. rewrite Eo. apply IH in H. cbn [ca_args ca_kwargs] in H.
      destruct H as (vs & ks & H1 & H2 & H3 & ->). exists (v :: vs), ks. split; [now apply su_more|]. split; [exact H2|]. split; [congruence|]. f_equal. now rewrite <- app_assoc.
Qed.
Lemma supplies_comma p r : forall v, denotes p v -> named (p ++ TOp ","%char :: r) = None.
Proof. intros v H. destruct H as [| | |ss H| | |]; cbn [app named]; try reflexivity. destruct ss; [congruence|reflexivity]. Qed.
Lemma supplies_end p : forall v, denotes p v -> named p = None.
Proof. intros v H. destruct H as [| | |ss H| | |]; cbn [app named]; try reflexivity. destruct ss; [congruence|reflexivity]. Qed.
Lemma arguments_complete ts vs ks : supplies ts vs ks -> forall f a, length ts < f -> new_names (ca_kwargs a) ks -> (ca_kwargs a <> [] -> vs = []) ->
  arguments f ts a = Some {| ca_args := ca_args a ++ vs; ca_kwargs := ca_kwargs a ++ by_name ks |}.
Proof.
  intros H. induction H as [|ts v H|ts v ts' vs ks H H' IH|n ts v H|n ts v ts' ks H H' IH]; intros f a Hf Hn Hv; (destruct f as [|f]; [lia|]); rewrite arguments_eq.
  - cbn [by_name map]. rewrite !app_nil_r. now destruct a.
  - pose proof (denotes_ne _ _ H) as Hne. destruct ts as [|t0 ts]; [congruence|]. set (w := t0 :: ts) in *. clearbody w. rewrite (supplies_end w v H).
    assert (Ea : ca_kwargs a = []) by (destruct (ca_kwargs a); [reflexivity|discriminate Hv; discriminate]). rewrite Ea. cbn [nonempty].
    pose proof (expr_complete w v [] (S (4 * length w)) H ltac:(lia) ltac:(intros s t K; discriminate)) as E. rewrite app_nil_r in E. rewrite E. reflexivity.
  - pose proof (supplies_comma ts ts' v H) as E1. pose proof (expr_complete ts v (TOp ","%char :: ts') (S (4 * length (ts ++ TOp ","%char :: ts'))) H ltac:(rewrite app_length; lia) (op_not_text _ _)) as E2.
    rewrite app_length in Hf. cbn [length] in Hf.
    destruct (ts ++ TOp ","%char :: ts') as [|t0 u] eqn:Eu; [now destruct ts|]. rewrite E1, E2.
    assert (Ea : ca_kwargs a = []) by (destruct (ca_kwargs a); [reflexivity|discriminate Hv; discriminate]). rewrite Ea. cbn [nonempty]. unfold next_arg. rewrite opens_same.
    rewrite IH; cbn [ca_args ca_kwargs]; [|lia|now rewrite <- Ea|congruence]. f_equal. f_equal. now rewrite <- app_assoc.
  - cbn [length] in Hf. rewrite (proj2 (named_iff _ n ts) eq_refl). destruct Hn as (_ & Hk & Hd). cbn [map fst] in Hk, Hd. inversion Hk as [|? ? Hk' _]; subst. inversion Hd as [|? ? Hd' _]; subst.
    rewrite (proj2 (free_iff n) Hk'), Hd'. cbn [orb].
    pose proof (expr_complete ts v [] (S (4 * length ts)) H ltac:(lia) ltac:(intros s t K; discriminate)) as E. rewrite app_nil_r in E. rewrite E. cbn [next_arg]. rewrite app_nil_r. cbn [by_name map fst snd]. now rewrite (dset_fresh _ _ _ Hd').
  - cbn [length] in Hf. rewrite app_length in Hf. cbn [length] in Hf. rewrite (proj2 (named_iff _ n _) eq_refl).
    assert (Hk' : name_free n) by (destruct Hn as (_ & Hk & _); cbn [map fst] in Hk; now inversion Hk). assert (Hd' : dget (ca_kwargs a) (KS n) = None) by (destruct Hn as (_ & _ & Hd); cbn [map fst] in Hd; now inversion Hd).
    rewrite (proj2 (free_iff n) Hk'), Hd'. cbn [orb].
    rewrite (expr_complete ts v (TOp ","%char :: ts') _ H); [|rewrite app_length; lia|apply op_not_text]. unfold next_arg. rewrite opens_same.
    apply (new_names_cons _ _ _ _ Hd' Hk') in Hn. destruct Hn as [Hn Hni]. rewrite IH; cbn [ca_args ca_kwargs]; [|lia|now rewrite (dset_fresh _ _ _ Hd')|reflexivity].
    rewrite (dset_fresh _ _ _ Hd'). rewrite <- app_assoc. reflexivity.
Qed.
Theorem eval_iff o a : eval_args o = Some a <-> gives o (ca_args a) (ca_kwargs a).
Proof.
  unfold eval_args, gives. split.
  - destruct (lex (S (length o)) o) as [ts|] eqn:El; [|discriminate]. apply lex_iff in El. intros H. apply arguments_sound in H. destruct H as (vs & ks & H1 & (H2 & H3 & _) & _ & ->). exists ts, ks. split; [exact El|]. split; [exact H1|]. split; [now split|reflexivity].
  - intros (ts & ks & Hl & Hs & (H2 & H3) & Hk). apply lex_iff in Hl. rewrite Hl. rewrite (arguments_complete ts (ca_args a) ks Hs); [|lia| |intros K; now contradiction K].
    + cbn [ca_args ca_kwargs no_args app]. rewrite <- Hk. now destruct a.
    + split; [exact H2|]. split; [exact H3|]. rewrite Forall_forall. reflexivity.
Qed.

(** ** one item *)
Lemma rs_yes x u c k : is_space x = true -> mt rs (x :: u) c k = k u c.
Proof. intros H. unfold rs. rewrite mt_set. unfold set_match. cbn [existsb citem_match xorb]. rewrite H. reflexivity. Qed.
Lemma rs_nil c k : mt rs [] c k = None.
Proof. reflexivity. Qed.
Definition tail_re : re := RSeq (ropt (RSeq (rchar "(") (RSeq (RGroup $"options" (RStar true RAny)) (rchar ")")))) at_end.
Lemma rest_tail t c k : mt rest_re t c k = match t with x :: u => if is_space x then match mt tail_re u c k with Some r => Some r | None => mt tail_re t c k end else mt tail_re t c k | [] => mt tail_re t c k end.
Proof.
  unfold rest_re, ropt at 1. rewrite mt_seq, mt_alt, mt_eps. fold tail_re. destruct t as [|x u]; [reflexivity|]. destruct (is_space x) eqn:E; [now rewrite (rs_yes _ _ _ _ E)|now rewrite (rs_no _ _ _ _ E)].
Qed.
Lemma star_none (k : str -> caps -> option (str * caps)) c : forall u n, (forall w v, u = w ++ v -> lacks nl w -> k v c = None) -> star_mt RAny true k n u c = None.
Proof.
  induction u as [|x u IH]; intros n H.
  - assert (K : k [] c = None) by (apply (H [] []); [reflexivity|intros []]). destruct n; cbn [star_mt mt]; now rewrite K.
  - assert (K : k (x :: u) c = None) by (apply (H [] (x :: u)); [reflexivity|intros []]). destruct n as [|n]; cbn [star_mt]; [exact K|].
    change (mt RAny (x :: u) c ?k) with (if Ascii.eqb x nl then None else k u c). cbv beta. destruct (Ascii.eqb_spec x nl) as [->|Hx]; [exact K|].
    destruct (Nat.ltb (length u) (length (x :: u))); [|exact K]. rewrite IH; [exact K|]. intros w v -> Hw. apply (H (x :: w) v); [reflexivity|]. intros [E|E]; [congruence|now apply Hw].
Qed.
Lemma tail_call o c (k : str -> caps -> option (str * caps)) : lacks nl o -> (forall s c, k s c <> None) -> mt tail_re ("("%char :: o ++ $")") c k = k [] (cap_set $"options" o c).
Proof. intros Ho Hk. pose proof (rest_call o c k Ho Hk) as E. rewrite rest_tail in E. exact E. Qed.
Lemma tail_none t c (k : str -> caps -> option (str * caps)) : t <> [] -> (forall o, lacks nl o -> t <> "("%char :: o ++ [")"%char]) -> mt tail_re t c k = None.
Proof.
  intros Hne Ht. unfold tail_re, ropt. rewrite mt_seq, mt_alt, mt_eps, mt_seq, mt_at_end. destruct t as [|x u]; [congruence|].
  assert (E : mt (rchar "(") (x :: u) c (fun s1 c1 => mt (RSeq (RGroup $"options" (RStar true RAny)) (rchar ")")) s1 c1 (fun s2 c2 => mt at_end s2 c2 k)) = None).
  { unfold rchar at 1. rewrite mt_set. unfold set_match. cbn [existsb citem_match xorb]. destruct (Ascii.eqb_spec "(" x) as [<-|Hx]; cbn [orb]; [|reflexivity].
    rewrite mt_seq. change (mt (RGroup $"options" (RStar true RAny)) ?s ?c ?k) with (mt (RStar true RAny) s c (fun s' c' => k s' (cap_set $"options" (firstn (length s - length s') s) c'))).
    cbv beta. rewrite mt_star. apply star_none. intros w v E Hw. unfold rchar. rewrite mt_set. destruct v as [|y v]; [reflexivity|]. unfold set_match. cbn [existsb citem_match xorb].
    destruct (Ascii.eqb_spec ")" y) as [<-|]; cbn [orb]; [|reflexivity]. rewrite mt_at_end. destruct v as [|z v]; [|reflexivity]. exfalso. apply (Ht w Hw). now rewrite E. }
  rewrite E. reflexivity.
Qed.
(** brackets are what the expression takes *)
Lemma paren_space : is_space "(" = false. Proof. reflexivity. Qed.
Lemma rest_brackets t o c (k : str -> caps -> option (str * caps)) : brackets t o -> (forall s c, k s c <> None) -> mt rest_re t c k = k [] (cap_set $"options" o c).
Proof.
  intros (Ho & sp & Hsp & ->) Hk. destruct Hsp as [->|(x & -> & Hx)]; cbn [app].
  - now apply rest_call.
  - rewrite rest_tail, Hx. change [")"%char] with $")". rewrite tail_call by assumption. destruct (k [] (cap_set $"options" o c)) eqn:E; [reflexivity|now apply Hk in E].
Qed.
Lemma rest_none t c (k : str -> caps -> option (str * caps)) : t <> [] -> (forall x, is_space x = true -> t <> [x]) -> (forall o, ~ brackets t o) -> mt rest_re t c k = None.
Proof.
  intros Hne H1 H2. rewrite rest_tail. destruct t as [|x u]; [congruence|].
  assert (E : mt tail_re (x :: u) c k = None) by (apply tail_none; [discriminate|]; intros o Ho K; apply (H2 o); split; [exact Ho|]; exists []; split; [now left|exact K]).
  rewrite E. destruct (is_space x) eqn:Ex; [|reflexivity].
  assert (E' : mt tail_re u c k = None); [|now rewrite E'].
  apply tail_none; [intros ->; now apply (H1 x Ex)|]. intros o Ho K. apply (H2 o). split; [exact Ho|]. exists [x]. split; [right; exists x; auto|]. now rewrite K.
Qed.
Lemma rS_yes x u c k : is_space x = false -> mt rS (x :: u) c k = k u c.
Proof. intros H. unfold rS. rewrite mt_set. unfold set_match. cbn [existsb citem_match xorb]. rewrite H. reflexivity. Qed.
Lemma rS_no x u c k : is_space x = true -> mt rS (x :: u) c k = None.
Proof. intros H. unfold rS. rewrite mt_set. unfold set_match. cbn [existsb citem_match xorb]. rewrite H. reflexivity. Qed.
Lemma star_lazy (k : str -> caps -> option (str * caps)) c t x : k t c = Some x -> forall n m, no_space n -> length (n ++ t) <= m ->
  (forall n1 n2, n = n1 ++ n2 -> n2 <> [] -> k (n2 ++ t) c = None) -> star_mt rS false k m (n ++ t) c = Some x.
Proof.
  intros Ht. induction n as [|y n IH]; intros m Hn Hm Hk.
  - cbn [app] in *. destruct m; cbn [star_mt]; now rewrite Ht.
  - cbn [app length] in *. destruct m as [|m]; [lia|]. inversion Hn as [|? ? Hy Hn']; subst. cbn [star_mt]. pose proof (Hk [] (y :: n) eq_refl ltac:(discriminate)) as K0. cbn [app] in K0. rewrite K0. rewrite (rS_yes _ _ _ _ Hy).
    assert (L : Nat.ltb (length (n ++ t)) (length (y :: n ++ t)) = true) by (apply Nat.ltb_lt; cbn [length]; lia). rewrite L. apply IH; [exact Hn'|lia|]. intros n1 n2 -> Hne. apply (Hk (y :: n1) n2); [reflexivity|exact Hne].
Qed.
Lemma star_lazy_none (k : str -> caps -> option (str * caps)) c : forall s m, (forall n t, s = n ++ t -> no_space n -> k t c = None) -> star_mt rS false k m s c = None.
Proof.
  induction s as [|y s IH]; intros m H.
  - assert (K : k [] c = None) by (apply (H [] []); [reflexivity|constructor]). destruct m; cbn [star_mt]; rewrite K; reflexivity.
  - assert (K : k (y :: s) c = None) by (apply (H [] (y :: s)); [reflexivity|constructor]). destruct m as [|m]; cbn [star_mt]; rewrite K; [reflexivity|].
    destruct (is_space y) eqn:Ey; [now rewrite (rS_no _ _ _ _ Ey)|]. rewrite (rS_yes _ _ _ _ Ey). destruct (Nat.ltb _ _); [|reflexivity]. apply IH. intros n t -> Hn. apply (H (y :: n) t); [reflexivity|now constructor].
Qed.
Definition k_end : str -> caps -> option (str * caps) := fun s c => Some (s, c).
Definition k_item (i : str) : str -> caps -> option (str * caps) := fun s' c' => mt rest_re s' (cap_set $"name" (firstn (length i - length s') i) c') k_end.
Lemma item_unfold x s : rmatch item_re (x :: s) = if is_space x then None else star_mt rS false (k_item (x :: s)) (length s) s [].
Proof.
  unfold rmatch. rewrite item_re_eq, mt_seq.
  change (mt (RGroup $"name" (rplus_lazy rS)) ?s ?c ?k) with (mt (rplus_lazy rS) s c (fun s' c' => k s' (cap_set $"name" (firstn (length s - length s') s) c'))).
  cbv beta. unfold rplus_lazy. rewrite mt_seq. destruct (is_space x) eqn:E; [now rewrite (rS_no _ _ _ _ E)|]. rewrite (rS_yes _ _ _ _ E), mt_star. reflexivity.
Qed.
Lemma item_nil : rmatch item_re [] = None. Proof. reflexivity. Qed.
Lemma firstn_pre {A} (n t : list A) : firstn (length (n ++ t) - length t) (n ++ t) = n.
Proof. rewrite app_length. replace (length n + length t - length t) with (length n) by lia. rewrite firstn_app, firstn_all, Nat.sub_diag, firstn_O. apply app_nil_r. Qed.
Lemma k_item_pre n t : k_item (n ++ t) t [] = mt rest_re t [($"name", n)] k_end.
Proof. unfold k_item. now rewrite firstn_pre. Qed.
(** an item does not end with a space *)
Definition no_end_space (i : str) : Prop := forall w x, i = w ++ [x] -> is_space x = false.
Lemma item_shortest i n t c : i = n ++ t -> n <> [] -> no_space n -> mt rest_re t [($"name", n)] k_end = Some ([], c) ->
  (forall n' t', i = n' ++ t' -> n' <> [] -> length n' < length n -> forall c k, mt rest_re t' c k = None) -> rmatch item_re i = Some ([], c).
Proof.
  intros -> Hne Hn Hr Hs. destruct n as [|x n]; [congruence|]. inversion Hn as [|? ? Hx Hn']; subst. cbn [app]. rewrite item_unfold, Hx.
  apply star_lazy; [|exact Hn'|lia|].
  - change (x :: n ++ t) with ((x :: n) ++ t). now rewrite k_item_pre.
  - intros n1 n2 -> Hn2. unfold k_item. apply (Hs (x :: n1) (n2 ++ t)); [cbn [app]; now rewrite app_assoc|discriminate|]. cbn [length]. rewrite app_length. destruct n2; [congruence|cbn [length]; lia].
Qed.
Lemma rest_none' i n t : i = n ++ t -> no_end_space i -> n <> [] -> t <> [] -> (forall o, ~ brackets t o) -> forall c k, mt rest_re t c k = None.
Proof. intros E Hi Hne Ht Hb c k. apply rest_none; [exact Ht| |exact Hb]. intros x Hx K. specialize (Hi n x). rewrite E, K in Hi. rewrite Hi in Hx; [discriminate|reflexivity]. Qed.
Theorem item_call' i n o : no_end_space i -> a_call i n o -> rmatch item_re i = Some ([], [($"name", n); ($"options", o)]).
Proof.
  intros Hi (Hne & Hn & (t & E & Hb) & Hmin). apply (item_shortest i n t); [exact E|exact Hne|exact Hn| |].
  - rewrite (rest_brackets t o _ k_end Hb ltac:(discriminate)). reflexivity.
  - intros n' t' E' Hne' Hlt. apply (rest_none' i n' t' E' Hi Hne').
    + intros ->. rewrite app_nil_r in E'. subst n'. rewrite E, app_length in Hlt. lia.
    + intros o' Hb'. specialize (Hmin n' t' o' E' Hne' Hb'). lia.
Qed.
Lemma prefix_no_space n' t' i : i = n' ++ t' -> no_space i -> no_space n'.
Proof. intros -> H. unfold no_space in *. now apply Forall_app in H. Qed.
Theorem item_word' i : not_a_call i -> i <> [] -> no_space i -> rmatch item_re i = Some ([], [($"name", i)]).
Proof.
  intros Hc Hne Hn. apply (item_shortest i i []); [now rewrite app_nil_r|exact Hne|exact Hn|now rewrite rest_nil|].
  intros n' t' E' Hne' Hlt. apply (rest_none' i n' t' E').
  - intros w x E. rewrite E in Hn. unfold no_space in Hn. rewrite Forall_app in Hn. destruct Hn as [_ Hn]. now inversion Hn.
  - exact Hne'.
  - intros ->. rewrite app_nil_r in E'. subst n'. lia.
  - intros o' Hb'. apply (Hc n' t' o' E' Hne'); [|exact Hb']. now apply (prefix_no_space n' t' i).
Qed.
Theorem item_none' i : no_end_space i -> not_a_call i -> ~ (i <> [] /\ no_space i) -> rmatch item_re i = None.
Proof.
  intros Hi Hc Hn. destruct i as [|x s]; [reflexivity|]. rewrite item_unfold. destruct (is_space x) eqn:Ex; [reflexivity|].
  apply star_lazy_none. intros n t -> Hs. unfold k_item. assert (Hxn : no_space (x :: n)) by now constructor.
  apply (rest_none' (x :: n ++ t) (x :: n) t eq_refl Hi); [discriminate| |].
  - intros ->. apply Hn. rewrite app_nil_r. split; [discriminate|exact Hxn].
  - intros o Hb. now apply (Hc (x :: n) t o eq_refl).
Qed.
(** an item is a call or not *)
Lemma brackets_dec t : {o | brackets t o} + {forall o, ~ brackets t o}.
Proof.
  assert (D : forall t, {o | lacks nl o /\ t = "("%char :: o ++ [")"%char]} + {forall o, ~ (lacks nl o /\ t = "("%char :: o ++ [")"%char])}).
  { clear t. intros t. destruct t as [|x u]; [right; intros o (_ & K); discriminate|]. destruct (ascii_dec x "(") as [->|Hx]; [|right; intros o (_ & K); congruence].
    destruct (rev u) as [|y w] eqn:Er.
    - right. intros o (_ & K). injection K as K. subst u. rewrite rev_app_distr in Er. discriminate.
    - assert (Eu : u = rev w ++ [y]) by (rewrite <- (rev_involutive u), Er; reflexivity). destruct (ascii_dec y ")") as [->|Hy].
      + destruct (in_dec ascii_dec nl (rev w)) as [Hi|Hi].
        * right. intros o (Ho & K). injection K as K. rewrite Eu in K. apply app_inj_tail in K. destruct K as [<- _]. contradiction.
        * left. exists (rev w). split; [exact Hi|now rewrite Eu].
      + right. intros o (_ & K). injection K as K. rewrite Eu in K. apply app_inj_tail in K. destruct K as [_ K]. congruence. }
  destruct (D t) as [(o & Ho & E)|N].
  { left. exists o. split; [exact Ho|]. exists []. split; [now left|exact E]. }
  destruct t as [|x u].
  { right. intros o (_ & sp & _ & K). destruct sp; discriminate. }
  destruct (is_space x) eqn:Ex.
  - destruct (D u) as [(o & Ho & E)|N'].
    + left. exists o. split; [exact Ho|]. exists [x]. split; [right; eauto|]. now rewrite E.
    + right. intros o (Ho & sp & Hsp & K). destruct Hsp as [->|(y & -> & Hy)]; cbn [app] in K; [now apply (N o)|]. apply (N' o). split; [exact Ho|congruence].
  - right. intros o (Ho & sp & Hsp & K). destruct Hsp as [->|(y & -> & Hy)]; cbn [app] in K; [now apply (N o)|]. congruence.
Qed.
Lemma no_space_dec n : {no_space n} + {~ no_space n}.
Proof. apply Forall_dec. intros x. destruct (is_space x); [right; discriminate|now left]. Qed.
Lemma call_dec i : {p : str * str | a_call i (fst p) (snd p)} + {not_a_call i}.
Proof.
  (* the shortest prefix among those of length at most m *)
  assert (D : forall m, {p : str * str | a_call i (fst p) (snd p)} + {forall n t o, i = n ++ t -> n <> [] -> no_space n -> length n <= m -> ~ brackets t o}).
  { induction m as [|m [(p & Hp)|IH]]; [right; intros n t o E Hne _ Hl; destruct n; [congruence|cbn in Hl; lia]|left; now exists p|].
    destruct (le_lt_dec (S m) (length i)) as [Hm|Hm].
    - destruct (no_space_dec (firstn (S m) i)) as [Hs|Hs].
      + destruct (brackets_dec (skipn (S m) i)) as [(o & Hb)|Hb].
        * left. exists (firstn (S m) i, o). cbn [fst snd]. split; [destruct i; [cbn in Hm; lia|discriminate]|]. split; [exact Hs|]. split; [exists (skipn (S m) i); split; [now rewrite firstn_skipn|exact Hb]|].
          intros n' t' o' E Hne Hb'. rewrite firstn_length, Nat.min_l by exact Hm. destruct (Nat.le_gt_cases (S m) (length n')) as [|Hlt]; [assumption|]. exfalso.
          apply (IH n' t' o' E Hne); [|lia|exact Hb']. unfold no_space in *. rewrite <- (firstn_skipn (length n') (firstn (S m) i)) in Hs. rewrite firstn_firstn, Nat.min_l in Hs by lia. apply Forall_app in Hs. destruct Hs as [Hs _].
          rewrite E, firstn_app, firstn_all, Nat.sub_diag, firstn_O, app_nil_r in Hs. exact Hs.
        * right. intros n t o E Hne Hn Hl. destruct (Nat.eq_dec (length n) (S m)) as [El|El]; [|apply (IH n t o E Hne Hn); lia].
          assert (t = skipn (S m) i) by (rewrite E, <- El, skipn_app, skipn_all, Nat.sub_diag; reflexivity). subst t. apply Hb.
      + right. intros n t o E Hne Hn Hl. destruct (Nat.eq_dec (length n) (S m)) as [El|El]; [|apply (IH n t o E Hne Hn); lia].
        exfalso. apply Hs. rewrite E, <- El, firstn_app, firstn_all, Nat.sub_diag, firstn_O, app_nil_r. exact Hn.
    - right. intros n t o E Hne Hn Hl. apply (IH n t o E Hne Hn). assert (length n <= length i) by (rewrite E, app_length; lia). lia. }
  destruct (D (length i)) as [H|H]; [now left|]. right. intros n t o E Hne Hn. apply (H n t o E Hne Hn). rewrite E, app_length. lia.
Qed.
Lemma a_call_fun i n o n' o' : a_call i n o -> a_call i n' o' -> n = n' /\ o = o'.
Proof.
  intros (Hne & Hn & (t & E & Hb) & Hmin) (Hne' & Hn' & (t' & E' & Hb') & Hmin').
  assert (L : length n = length n') by (apply Nat.le_antisymm; [now apply (Hmin n' t' o')|now apply (Hmin' n t o)]).
  assert (En : n = n') by (rewrite <- (firstn_all n), <- (firstn_all n'), <- L; transitivity (firstn (length n) i); [rewrite E, firstn_app, Nat.sub_diag, firstn_O; now rewrite app_nil_r|rewrite E', L, firstn_app, Nat.sub_diag, firstn_O; now rewrite app_nil_r]).
  split; [exact En|]. subst n'. assert (t = t') by (rewrite E in E'; now apply app_inv_head in E'). subst t'.
  destruct Hb as (Ho & sp & Hsp & Et), Hb' as (Ho' & sp' & Hsp' & Et'). rewrite Et in Et'.
  assert (P : forall x, is_space x = true -> x <> "("%char) by (intros x Hx ->; discriminate).
  destruct Hsp as [->|(x & -> & Hx)], Hsp' as [->|(x' & -> & Hx')]; cbn [app] in Et'.
  - assert (K : o ++ [")"%char] = o' ++ [")"%char]) by congruence. now apply app_inj_tail in K.
  - assert ("("%char = x') by congruence. now contradiction (P x' Hx').
  - assert (x = "("%char) by congruence. now contradiction (P x Hx).
  - assert (K : o ++ [")"%char] = o' ++ [")"%char]) by congruence. now apply app_inj_tail in K.
Qed.
Lemma call_not i n o : a_call i n o -> ~ not_a_call i.
Proof. intros (Hne & Hn & (t & E & Hb) & _) K. now apply (K n t o). Qed.
Theorem get_item_iff i a : no_end_space i -> (get_item i = Ok a <-> item_means i a).
Proof.
  intros Hi. unfold get_item. destruct (call_dec i) as [((n & o) & Hc)|Hc]; cbn [fst snd] in *.
  - rewrite (item_call' i n o Hi Hc). change (cap $"name" [($"name", n); ($"options", o)]) with (Some n). change (cap $"options" [($"name", n); ($"options", o)]) with (Some o). cbv zeta. cbn match.
    destruct o as [|x o].
    + split.
      * intros H. injection H as <-. now apply im_empty.
      * intros H. destruct H as [H _ _|n' H|n' o' args kwargs H Hne H']; [now apply call_not in Hc|destruct (a_call_fun _ _ _ _ _ Hc H) as [-> _]; reflexivity|destruct (a_call_fun _ _ _ _ _ Hc H) as [_ <-]; congruence].
    + split.
      * destruct (eval_args (x :: o)) as [b|] eqn:Ee; [|discriminate]. intros H. injection H as <-. apply eval_iff in Ee. now apply (im_call i n (x :: o)).
      * intros H. destruct H as [H _ _|n' H|n' o' args kwargs H Hne H']; [now apply call_not in Hc|destruct (a_call_fun _ _ _ _ _ Hc H) as [_ K]; discriminate|destruct (a_call_fun _ _ _ _ _ Hc H) as [-> <-]].
        assert (Ee : eval_args (x :: o) = Some {| ca_args := args; ca_kwargs := kwargs |}) by (apply eval_iff; exact H'). rewrite Ee. reflexivity.
  - destruct (list_eq_dec ascii_dec i []) as [->|Hne].
    { rewrite item_nil. split; [discriminate|]. intros H. destruct H as [_ K _|n' H|n' o' args kwargs H Hne H']; [congruence|now apply call_not in H|now apply call_not in H]. }
    destruct (no_space_dec i) as [Hs|Hs].
    + rewrite (item_word' i Hc Hne Hs). change (cap $"name" [($"name", i)]) with (Some i). change (cap $"options" [($"name", i)]) with (@None str). cbv zeta. cbn match. split.
      * intros H. injection H as <-. now apply im_word.
      * intros H. destruct H as [_ _ _|n' H|n' o' args kwargs H _ H']; [reflexivity|now apply call_not in H|now apply call_not in H].
    + rewrite (item_none' i Hi Hc) by tauto. split; [discriminate|]. intros H. destruct H as [_ _ K|n' H|n' o' args kwargs H _ H']; [contradiction|now apply call_not in H|now apply call_not in H].
Qed.
Theorem get_item_exit i e : get_item i = Raise e -> e = SystemExit.
Proof.
  unfold get_item. destruct (rmatch item_re i) as [[? c]|]; [|congruence]. cbv zeta. destruct (cap $"options" c) as [[|x o]|]; try discriminate. destruct (eval_args (x :: o)); [discriminate|congruence].
Qed.
