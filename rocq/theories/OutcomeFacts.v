(** * OutcomeFacts: every outcome of the match functions (C133). *)
From Verif Require Import PyBase DictFacts StrFacts MatchFuncs SpecMatch MatchFacts MatchExact SpecVariable SpecText TextFacts InputFacts SpecCalls SpecOutcome.
Local Open Scope string_scope.
Local Open Scope list_scope.

Ltac other := let x := fresh in intros x; discriminate.
Ltac absurd := exfalso; match goal with
  | H : not_text (VStr ?s) |- _ => exact (H s eq_refl)
  | H : not_list (VList ?s) |- _ => exact (H s eq_refl)
  | H : not_dict (VDict ?s) |- _ => exact (H s eq_refl)
  | H : forall b : bool, VBool ?c <> VBool b |- _ => exact (H c eq_refl) end.
(** a function is described by a relation that it meets and that has one outcome only *)
Lemma gives {A} (f : A) (G : A -> Prop) : G f -> (forall a b, G a -> G b -> a = b) -> forall r, f = r <-> G r.
Proof. intros H U r. split; [now intros <-|]. intros K. now apply U. Qed.
Lemma same_bool (b c : bool) (P : Prop) : (b = true <-> P) -> (c = true <-> P) -> b = c.
Proof. intros H K. destruct b, c; try reflexivity; [symmetry|]; tauto. Qed.

(** ** is a text in a value *)
Lemma text_in_is p v : text_in p v (py_in p v).
Proof.
  destruct v as [|b|z|s|l|d|o]; cbn [py_in]; try (apply ti_other; other).
  - apply ti_text. apply containsb_spec.
  - apply ti_list. rewrite existsb_exists. split; [|intros H; exists (VStr p); split; [exact H|cbn [py_eq]; apply str_eqb_refl]].
    intros (x & H & E). destruct x; try discriminate E. cbn [py_eq] in E. apply str_eqb_eq in E. now subst.
  - apply ti_dict. unfold dmem. destruct (dget d (KS p)) as [v|] eqn:E.
    + split; [|reflexivity]. intros _. exists v. now apply dget_In.
    + split; [discriminate|]. intros [v H]. exfalso. apply (proj1 (dget_None_notin d (KS p)) E). apply in_map_iff. exists (KS p, v). auto.
Qed.
Lemma text_in_one p v a b : text_in p v a -> text_in p v b -> a = b.
Proof. intros H K. inversion H; subst; inversion K; subst; try absurd; try reflexivity; (apply (Logic.f_equal Ok); eapply same_bool; eassumption). Qed.
Lemma text_in_iff p v r : py_in p v = r <-> text_in p v r.
Proof. apply gives; [apply text_in_is|apply text_in_one]. Qed.
Theorem exclude_iff data p r : f_exclude data p = r <-> exclude_gives data p r.
Proof.
  unfold f_exclude. split.
  - intros <-. destruct (py_in p data) as [b|e] eqn:E; apply text_in_iff in E; cbn [rbind].
    + apply (eg_ok data p b) in E. destruct b; exact E.
    + now apply eg_bad.
  - intros H; destruct H as [b H|e H]; apply text_in_iff in H; rewrite H; cbn [rbind]; [destruct b|]; reflexivity.
Qed.
Theorem contains_iff data ps r : f_contains data ps = r <-> contains_gives data ps r.
Proof.
  revert r. induction ps as [|p ps IH]; intros r.
  - cbn [f_contains]. split; [intros <-; apply cg_none; constructor|]. intros H; inversion H; subst; try reflexivity; try discriminate. destruct a; discriminate.
  - cbn [f_contains]. destruct (py_in p data) as [b|e] eqn:E; cbn [rbind]; apply text_in_iff in E.
    + destruct b.
      * split; [intros <-; now apply (cg_some _ _ [] p ps)|]. intros H; inversion H; subst; try reflexivity.
        -- exfalso. match goal with K : Forall _ (p :: ps) |- _ => inversion K; subst end. match goal with K : text_in p data (Ok false) |- _ => pose proof (text_in_one _ _ _ _ E K); discriminate end.
        -- exfalso. match goal with K : p :: ps = ?q :: _, K' : text_in ?q data (Raise _) |- _ => assert (p = q) by congruence; subst q; pose proof (text_in_one _ _ _ _ E K'); discriminate end.
      * rewrite IH. split.
        -- intros H; inversion H; subst; [apply (cg_some _ _ (p :: a) p0 b); [reflexivity|now constructor|assumption]|apply cg_none; now constructor|].
           exfalso. match goal with K : text_in ?q data (Raise _) |- _ => rename K into K1 end. inversion K1; subst; inversion E; subst; try absurd.
        -- intros H; inversion H; subst.
           ++ destruct a as [|x a]; cbn [app] in *; [exfalso; match goal with K : p :: ps = ?q :: _ |- _ => assert (p = q) by congruence; subst end; match goal with K : text_in _ data (Ok true) |- _ => pose proof (text_in_one _ _ _ _ E K); discriminate end|].
              match goal with K : Forall _ (x :: a) |- _ => inversion K; subst end. apply (cg_some _ _ a p0 b); [congruence|assumption|assumption].
           ++ apply cg_none. match goal with K : Forall _ (p :: ps) |- _ => inversion K; subst; assumption end.
           ++ exfalso. match goal with K : p :: ps = ?q :: _, K' : text_in ?q data (Raise _) |- _ => assert (p = q) by congruence; subst q; pose proof (text_in_one _ _ _ _ E K'); discriminate end.
    + split; [intros <-; now apply (cg_bad _ _ p ps)|]. intros H; inversion H; subst.
      * exfalso. match goal with K : text_in _ data (Ok true) |- _ => inversion K; subst; inversion E; subst; absurd end.
      * exfalso. match goal with K : Forall _ (p :: ps) |- _ => inversion K; subst end. match goal with K : text_in p data (Ok false) |- _ => pose proof (text_in_one _ _ _ _ E K); discriminate end.
      * match goal with K : p :: ps = ?q :: _, K' : text_in ?q data (Raise _) |- _ => assert (p = q) by congruence; subst q; pose proof (text_in_one _ _ _ _ E K') end. congruence.
Qed.

(** ** join, append, prepend *)
Lemma texts_of l : (exists ss, l = map VStr ss) \/ (exists v, In v l /\ not_text v).
Proof.
  induction l as [|v l [[ss ->]|(x & H & K)]]; [left; now exists []|..].
  - destruct v as [|b|z|s|l|d|o]; try solve [right; eexists; split; [left; reflexivity|other]]. left. now exists (s :: ss).
  - right. exists x. split; [now right|exact K].
Qed.
Lemma as_str_texts ss : rmap as_str (map VStr ss) = Ok ss.
Proof. induction ss as [|s ss IH]; [reflexivity|]. cbn [map rmap as_str rbind]. now rewrite IH. Qed.
Lemma as_str_bad l v : In v l -> not_text v -> rmap as_str l = Raise TypeError.
Proof.
  intros H K. induction l as [|x l IH]; [contradiction|]. cbn [rmap]. destruct H as [->|H].
  - destruct v; try reflexivity. absurd.
  - destruct x; try reflexivity. cbn [as_str rbind]. now rewrite (IH H).
Qed.
Lemma map_vstr_in ss v : In v (map VStr ss) -> not_text v -> False.
Proof. intros H K. apply in_map_iff in H as (s & <- & _). exact (K s eq_refl). Qed.
Theorem join_iff data sep r : f_join data sep = r <-> join_gives sep data r.
Proof.
  split.
  - intros <-. unfold f_join. destruct data as [|b|z|s|l|d|o]; try (apply jg_other; other).
    destruct (texts_of l) as [[ss ->]|(v & H & K)]; [rewrite as_str_texts; apply jg_texts|rewrite (as_str_bad l v H K); now apply (jg_bad _ _ v)].
  - intros H; destruct H; unfold f_join; [now rewrite as_str_texts|now rewrite (as_str_bad l v)|]. destruct v; try reflexivity. absurd.
Qed.
Lemma stands_iff vars n v : get_or_self vars n = v <-> stands_for vars n v.
Proof.
  unfold get_or_self. split; [intros <-; destruct (dget vars (KS n)) as [v|] eqn:E; [now constructor|now apply sf_self]|].
  intros H; destruct H as [v H|H]; now rewrite H.
Qed.
Theorem append_iff env n data r : f_append env data n = r <-> append_gives false (m_vars env) n data r.
Proof.
  unfold f_append. cbv zeta. split.
  - intros <-. destruct data as [|b|z|s|l|d|o]; try (apply ag_other; other).
    + destruct (get_or_self (m_vars env) n) as [|b|z|t|l|d|o] eqn:E; cbn [as_str rbind]; apply stands_iff in E; try (eapply ag_bad; [exact E|other]). exact (ag_text false _ _ s t E).
    + apply (ag_list false). now apply stands_iff.
  - intros H; destruct H; try (match goal with K : stands_for _ _ _ |- _ => apply stands_iff in K; rewrite K end); cbn [as_str rbind]; try reflexivity.
    + destruct v; try reflexivity; absurd.
    + destruct v; try reflexivity; absurd.
Qed.
Theorem prepend_iff env n data r : f_prepend env data n = r <-> append_gives true (m_vars env) n data r.
Proof.
  unfold f_prepend. cbv zeta. split.
  - intros <-. destruct data as [|b|z|s|l|d|o]; try (apply ag_other; other).
    + destruct (get_or_self (m_vars env) n) as [|b|z|t|l|d|o] eqn:E; cbn [as_str rbind]; apply stands_iff in E; try (eapply ag_bad; [exact E|other]). exact (ag_text true _ _ s t E).
    + apply (ag_list true). now apply stands_iff.
  - intros H; destruct H; try (match goal with K : stands_for _ _ _ |- _ => apply stands_iff in K; rewrite K end); cbn [as_str rbind]; try reflexivity.
    + destruct v; try reflexivity; absurd.
    + destruct v; try reflexivity; absurd.
Qed.

(** ** replaceall, resuball *)
Section Swaps.
Variables (one : str -> str -> str -> res str) (plain : str -> option str).
Definition swap1 (s : str) (p : swap) : res str :=
  match fst p with VStr old => do n <- key_str (snd p); one old n s | _ => Ok s end.
Lemma swapped_iff l : forall s r, rfold swap1 l s = r <-> swapped (fun o n s r => one o n s = r) l s r.
Proof.
  induction l as [|[v k] l IH]; intros s r.
  - cbn [rfold]. split; [intros <-; constructor|intros H; now inversion H].
  - cbn [rfold]. unfold swap1 at 1. cbn [fst snd]. destruct v as [|b|z|old|x|d|o];
      try solve [cbn [rbind]; rewrite IH; split; [intros H; apply sw_other; [other|exact H]|intros H; inversion H; subst; assumption]].
    destruct k as [new|z|]; cbn [key_str rbind].
    + destruct (one old new s) as [s'|e] eqn:E; cbn [rbind].
      * rewrite IH. split; [intros H; now apply (sw_text _ _ _ _ _ s')|]. intros H; inversion H; subst; try absurd; try congruence; try (exfalso; match goal with K : forall n, KS new <> KS n |- _ => exact (K new eq_refl) end).
      * split; [intros <-; now apply sw_bad|]. intros H; inversion H; subst; try absurd; try congruence; try (exfalso; match goal with K : forall n, KS new <> KS n |- _ => exact (K new eq_refl) end).
    + split; [intros <-; apply sw_key; other|]. intros H; inversion H; subst; try absurd. reflexivity.
    + split; [intros <-; apply sw_key; other|]. intros H; inversion H; subst; try absurd. reflexivity.
Qed.
(** a fold over arguments, each of which is a fold over its swaps *)
Lemma rfold_flat {A} (step : str -> A -> res str) (g : A -> list swap) : (forall s a, step s a = rfold swap1 (g a) s) ->
  forall l s, rfold step l s = rfold swap1 (flat_map g l) s.
Proof.
  intros H. induction l as [|a l IH]; intros s; [reflexivity|]. cbn [rfold flat_map]. rewrite H.
  assert (G : forall x y s, rfold swap1 (x ++ y) s = rbind (rfold swap1 x s) (rfold swap1 y)).
  { induction x as [|p x IHx]; intros y s0; [reflexivity|]. cbn [app rfold]. destruct (swap1 s0 p); cbn [rbind]; [apply IHx|reflexivity]. }
  rewrite G. destruct (rfold swap1 (g a) s); cbn [rbind]; [apply IH|reflexivity].
Qed.
Lemma rfold_map {A} (f : A -> swap) l : forall s, rfold (fun s a => swap1 s (f a)) l s = rfold swap1 (map f l) s.
Proof. induction l as [|a l IH]; intros s; [reflexivity|]. cbn [rfold map]. destruct (swap1 s (f a)); cbn [rbind]; [apply IH|reflexivity]. Qed.
Definition list_step (new : key) (l : list val) (s : str) : res str := rfold (fun s o => match o with VStr old => do n <- key_str new; one old n s | _ => Ok s end) l s.
Lemma list_step_is new l s : list_step new l s = rfold swap1 (map (fun o => (o, new)) l) s.
Proof. unfold list_step. rewrite <- rfold_map. reflexivity. Qed.
Definition dict_step' (d : dict) (s : str) : res str := rfold (fun s kv => match snd kv with VList l => list_step (fst kv) l s | VStr old => do n <- key_str (fst kv); one old n s | _ => Ok s end) d s.
Lemma dict_step_is d s : dict_step' d s = rfold swap1 (flat_map (fun kv => match snd kv with VList l => map (fun o => (o, fst kv)) l | v => [(v, fst kv)] end) d) s.
Proof.
  unfold dict_step'. apply rfold_flat. intros x [k v]. cbn [fst snd]. destruct v as [|b|z|o|l|d'|o]; try reflexivity; [|apply list_step_is].
  cbn [rfold]. unfold swap1. cbn [fst snd]. destruct (key_str k) as [n0|]; cbn [rbind]; [|reflexivity]. now destruct (one o n0 x).
Qed.
Definition arg_step (vars : dict) (new : str) (s : str) (old : str) : res str :=
  match dget vars (KS old) with
  | Some (VList l) => list_step (KS new) l s
  | Some (VDict d) => dict_step' d s
  | Some (VStr o) => match plain o with Some p => one p new s | None => Ok s end
  | Some _ => Ok s
  | None => one old new s
  end.
Lemma arg_step_is vars new s old : arg_step vars new s old = rfold swap1 (swaps plain vars new old) s.
Proof.
  unfold arg_step, swaps. destruct (dget vars (KS old)) as [v|].
  - destruct v as [|b|z|o|l|d|o]; try reflexivity; [|apply list_step_is|apply dict_step_is].
    destruct (plain o) as [p|]; [|reflexivity]. cbn [rfold]. unfold swap1. cbn [fst snd key_str rbind]. now destruct (one p new s).
  - cbn [rfold]. unfold swap1. cbn [fst snd key_str rbind]. now destruct (one old new s).
Qed.
Lemma swap_all vars data args r :
  (let '(new, olds) := match args with new :: old :: rest => (new, old :: rest) | _ => ([], args) end in
   do s <- rfold (arg_step vars new) olds data; Ok (VStr s, FNone)) = r <-> swap_gives (fun o n s r => one o n s = r) plain vars data args r.
Proof.
  assert (G : forall new olds, new_and_olds args new olds -> (do s <- rfold (arg_step vars new) olds data; Ok (VStr s, FNone)) = r <-> swap_gives (fun o n s r => one o n s = r) plain vars data args r).
  { intros new olds H. rewrite (rfold_flat _ _ (arg_step_is vars new)). destruct (rfold swap1 (flat_map (swaps plain vars new) olds) data) as [s|e] eqn:E; cbn [rbind]; apply swapped_iff in E.
    - split; [intros <-; now apply (sg_ok _ _ _ _ _ new olds)|]. intros K; destruct K as [new' olds' s' N K|new' olds' e N K]; assert (new' = new /\ olds' = olds) as [-> ->] by (inversion H; subst; inversion N; subst; auto); apply swapped_iff in E, K; [|congruence].
      assert (s' = s) by congruence. now subst.
    - split; [intros <-; now apply (sg_bad _ _ _ _ _ new olds)|]. intros K; destruct K as [new' olds' s' N K|new' olds' e' N K]; assert (new' = new /\ olds' = olds) as [-> ->] by (inversion H; subst; inversion N; subst; auto); apply swapped_iff in E, K; congruence. }
  destruct args as [|a [|b t]]; apply G; constructor.
Qed.
End Swaps.
Lemma swapped_imp (f g : str -> str -> str -> res str -> Prop) : (forall o n s r, f o n s r -> g o n s r) -> forall l s r, swapped f l s r -> swapped g l s r.
Proof. intros I l s r H. induction H; [apply sw_end|now apply sw_other|now apply sw_key|eapply sw_text; eauto|apply sw_bad; auto]. Qed.
Lemma swap_gives_imp (f g : str -> str -> str -> res str -> Prop) plain vars data args r : (forall o n s r, f o n s r -> g o n s r) -> swap_gives f plain vars data args r -> swap_gives g plain vars data args r.
Proof. intros I H. destruct H as [new olds s N K|new olds e N K]; [apply (sg_ok _ _ _ _ _ new olds)|apply (sg_bad _ _ _ _ _ new olds)]; try exact N; eapply swapped_imp; eauto. Qed.
Lemma intersperse_is new s : intersperse_all new s = concat (map (fun c => new ++ [c]) s) ++ new.
Proof. induction s as [|c s IH]; [reflexivity|]. cbn [intersperse_all map concat]. rewrite IH, <- !app_assoc. reflexivity. Qed.
Lemma replace_iff o n s r : Ok (replace_all o n s) = r <-> replace_gives o n s r.
Proof.
  destruct o as [|c o].
  - cbn [replace_all]. rewrite intersperse_is. split; [intros <-; constructor|intros H; inversion H; subst; congruence || reflexivity].
  - rewrite replace_split by discriminate. split; [intros <-; constructor; [discriminate|now apply cut_iff]|]. intros H; inversion H as [o' n' s' l Ho K E|]; subst. apply cut_iff in K; [|discriminate]. now subst.
Qed.
Theorem replaceall_iff vars data args r : f_replaceall vars data args = r <-> swap_gives replace_gives (fun _ => None) vars data args r.
Proof.
  transitivity (swap_gives (fun o n s r => Ok (replace_all o n s) = r) (fun _ => None) vars data args r).
  - rewrite <- (swap_all (fun o n s => Ok (replace_all o n s)) (fun _ => None)).
    unfold f_replaceall.
    assert (A : forall new s old, replace_arg vars new s old = arg_step (fun o n s => Ok (replace_all o n s)) (fun _ => None) vars new s old).
    { intros new s old. unfold replace_arg, arg_step. destruct (dget vars (KS old)) as [[]|]; reflexivity. }
    assert (B : forall new olds, rfold (replace_arg vars new) olds data = rfold (arg_step (fun o n s => Ok (replace_all o n s)) (fun _ => None) vars new) olds data).
    { intros new olds. generalize data. clear -A. induction olds as [|x l IH]; intros s; [reflexivity|]. cbn [rfold]. rewrite A. destruct (arg_step _ _ _ _ _ _); cbn [rbind]; [apply IH|reflexivity]. }
    destruct args as [|a [|b t]]; now rewrite B.
  - split; apply swap_gives_imp; intros o n s x; apply replace_iff.
Qed.
Theorem resuball_iff sub escape vars data args r : f_resuball sub escape vars data args = r <-> swap_gives (fun o n s r => sub o n s 0 = r) (fun o => Some (escape o)) vars data args r.
Proof.
  rewrite <- (swap_all (fun o n s => sub o n s 0) (fun o => Some (escape o))). unfold f_resuball.
  assert (A : forall new s old, resub_arg sub escape vars new s old = arg_step (fun o n s => sub o n s 0) (fun o => Some (escape o)) vars new s old).
  { intros new s old. unfold resub_arg, arg_step. destruct (dget vars (KS old)) as [[]|]; reflexivity. }
  assert (B : forall new olds, rfold (resub_arg sub escape vars new) olds data = rfold (arg_step (fun o n s => sub o n s 0) (fun o => Some (escape o)) vars new) olds data).
  { intros new olds. generalize data. clear -A. induction olds as [|x l IH]; intros s; [reflexivity|]. cbn [rfold]. rewrite A. destruct (arg_step _ _ _ _ _ _); cbn [rbind]; [apply IH|reflexivity]. }
  destruct args as [|a [|b t]]; now rewrite B.
Qed.

(** ** truncate *)
Theorem truncate_iff n data r : f_truncate data n = r <-> truncate_gives n data r.
Proof.
  unfold f_truncate. change $" " with (t_ " ").
  assert (C : forall s l, cut_at (t_ " ") s l <-> split (t_ " ") s = l) by (intros s l; symmetry; apply cut_iff; discriminate).
  split.
  - intros <-. destruct data as [|b|z|s|l|d|o]; try (apply tg_bad; other). cbv zeta.
    set (w := split (t_ " ") s). assert (W : cut_at (t_ " ") s w) by now apply C.
    destruct (Z.leb n (Z.of_nat (length w))) eqn:E; [apply Z.leb_le in E|apply Z.leb_gt in E; now apply (tg_short _ _ w)].
    unfold slice_to. destruct (Z.ltb n 0) eqn:N; [apply Z.ltb_lt in N|apply Z.ltb_ge in N].
    + destruct (Z.ltb n (- Z.of_nat (length w))) eqn:M; [apply Z.ltb_lt in M|apply Z.ltb_ge in M].
      * replace (Z.to_nat (Z.of_nat (length w) + n)) with 0 by lia. now apply (tg_all _ _ w).
      * set (k := Z.to_nat (Z.of_nat (length w) + n)). apply (tg_last _ _ (firstn k w) (skipn k w)); [now rewrite firstn_skipn|exact N|]. rewrite skipn_length. lia.
    + apply (tg_first _ _ (firstn (Z.to_nat n) w) (skipn (Z.to_nat n) w)); [now rewrite firstn_skipn|]. rewrite firstn_length. lia.
  - intros H; destruct H as [s a b H L|s l H L|s a b H N L|s l H L|v H]; try (apply C in H; rewrite H; clear H; cbv zeta).
    + rewrite app_length. replace (Z.leb n _) with true by (symmetry; apply Z.leb_le; lia). unfold slice_to. replace (Z.ltb n 0) with false by (symmetry; apply Z.ltb_ge; lia).
      replace (Z.to_nat n) with (length a) by lia. now rewrite firstn_app, Nat.sub_diag, firstn_O, app_nil_r, firstn_all.
    + replace (Z.leb n _) with false by (symmetry; apply Z.leb_gt; lia). reflexivity.
    + replace (Z.leb n _) with true by (symmetry; apply Z.leb_le; lia). unfold slice_to. replace (Z.ltb n 0) with true by (symmetry; apply Z.ltb_lt; lia). rewrite app_length.
      replace (Z.to_nat _) with (length a) by lia. now rewrite firstn_app, Nat.sub_diag, firstn_O, app_nil_r, firstn_all.
    + replace (Z.leb n _) with true by (symmetry; apply Z.leb_le; lia). unfold slice_to. replace (Z.ltb n 0) with true by (symmetry; apply Z.ltb_lt; lia).
      replace (Z.to_nat _) with 0 by lia. reflexivity.
    + destruct v; try reflexivity. absurd.
Qed.

(** ** unrange *)
Lemma between_is x y : tl (map str_of_Z (zrange x y)) = map str_of_Z (between_z x y).
Proof.
  unfold zrange, between_z. destruct (Z.to_nat (y - x)) as [|n] eqn:E.
  - replace (Z.to_nat (y - x - 1)) with 0 by lia. reflexivity.
  - replace (Z.to_nat (y - x - 1)) with n by lia. cbn [seq map tl]. rewrite <- seq_shift, !map_map. apply map_ext. intros i. apply (Logic.f_equal str_of_Z). lia.
Qed.
Definition fields (jc : str) (items : list str) : list (list str) := map (fun p => filter nonempty (split jc p)) items.
Definition pre (a : list str) (r : res (option (list str))) : res (option (list str)) :=
  match r with Ok (Some l) => Ok (Some (a ++ l)) | _ => r end.
Lemma loop_written jc items : forall u a s, exists r, written_out ((a ++ [s]) :: fields jc items) r /\ unrange_loop jc items (u ++ a ++ [s]) = pre u r.
Proof.
  induction items as [|item rest IH]; intros u a s.
  - exists (Ok (Some (a ++ [s]))). split; [constructor|reflexivity].
  - cbn [unrange_loop fields map]. rewrite app_assoc, opt_last_app, <- app_assoc. unfold int_of. destruct (py_int s) as [x|] eqn:Es; cbn [rbind].
    2: { exists (Raise ValueError). split; [now constructor|reflexivity]. }
    change (filter ne (split jc item)) with (filter nonempty (split jc item)). destruct (filter nonempty (split jc item)) as [|h b]; [exists (Raise IndexError); split; [now apply (wo_no_end _ _ _ x)|reflexivity]|].
    destruct (py_int h) as [y|] eqn:Eh; [|exists (Ok None); split; [now apply (wo_stop _ _ _ _ _ x)|reflexivity]].
    destruct (exists_last (l := h :: b)) as (b' & l & Hl); [discriminate|].
    destruct (IH (u ++ (a ++ [s]) ++ map str_of_Z (between_z x y)) b' l) as (r & Hr & E). rewrite <- Hl in Hr.
    rewrite between_is, Hl. replace ((u ++ a ++ [s]) ++ map str_of_Z (between_z x y) ++ b' ++ [l]) with ((u ++ (a ++ [s]) ++ map str_of_Z (between_z x y)) ++ b' ++ [l]) by (rewrite <- !app_assoc; reflexivity).
    rewrite E. rewrite <- Hl. exists (pre ((a ++ [s]) ++ map str_of_Z (between_z x y)) r). destruct r as [[k|]|e]; cbn [pre].
    + split; [rewrite <- app_assoc; now apply wo_range|]. now rewrite <- !app_assoc.
    + split; [now apply (wo_later _ _ _ _ _ x y)|reflexivity].
    + split; [now apply (wo_fails _ _ _ _ _ x y)|reflexivity].
Qed.
Lemma written_one cs r1 : written_out cs r1 -> forall r2, written_out cs r2 -> r1 = r2.
Proof.
  induction 1 as [|c|a s b t H|a s t x H|a s h b t x H K|a s h b t x y l H K W IH|a s h b t x y H K W IH|a s h b t x y e H K W IH]; intros r2 H2; inversion H2; subst; try reflexivity;
    match goal with E : _ ++ [_] = _ ++ [_] |- _ => apply app_inj_tail in E as [-> ->] end; try congruence; try (assert (x0 = x) by congruence; assert (y0 = y) by congruence; subst);
    try (match goal with K' : written_out _ ?r |- _ = _ => pose proof (IH _ K') end; congruence).
Qed.
Lemma loop_iff jc items r : unrange_loop jc items [] = r <-> written_out (from_first (fields jc items)) r.
Proof.
  apply gives; [|intros a b H K; exact (written_one _ _ H _ K)].
  induction items as [|item rest IH]; [constructor|]. cbn [unrange_loop fields map opt_last rev]. change (filter ne (split jc item)) with (filter nonempty (split jc item)).
  destruct (filter nonempty (split jc item)) as [|h b] eqn:E; [exact IH|]. destruct (exists_last (l := h :: b)) as (b' & l & Hl); [discriminate|]. cbn [from_first]. rewrite Hl.
  destruct (loop_written jc rest [] b' l) as (r0 & Hr & E0). cbn [app] in E0. rewrite E0. replace (pre [] r0) with r0 by (destruct r0 as [[]|]; reflexivity). exact Hr.
Qed.
Lemma fields_iff jc items : jc <> [] -> forall fs, Forall2 (cut_at jc) items fs <-> map (split jc) items = fs.
Proof.
  intros Hj. induction items as [|x items IH]; intros fs; cbn [map]; [split; [intros H; now inversion H|now intros <-]|]. split.
  - intros H; inversion H as [|a b l m H1 H2]; subst. apply cut_iff in H1; [|exact Hj]. apply IH in H2. congruence.
  - intros <-. constructor; [now apply cut_iff|now apply IH].
Qed.
Lemma chunks_iff rc jc s cs : rc <> [] -> jc <> [] -> chunks rc jc s cs <-> cs = from_first (fields jc (split rc s)).
Proof.
  intros Hr Hj. unfold fields. assert (M : forall l, map (fun p => filter nonempty (split jc p)) l = map (filter nonempty) (map (split jc) l)) by (intros l; now rewrite map_map).
  split.
  - intros (ps & fs & H & K & ->). apply cut_iff in H; [|exact Hr]. apply fields_iff in K; [|exact Hj]. subst. now rewrite M.
  - intros ->. exists (split rc s), (map (split jc) (split rc s)). split; [now apply cut_iff|]. split; [now apply fields_iff|]. now rewrite M.
Qed.
Theorem unrange_iff rc jc s r : f_unrange s rc jc = r <-> unrange_gives rc jc s r.
Proof.
  unfold f_unrange. destruct (containsb rc s) eqn:C.
  - apply containsb_spec in C. destruct C as (x & y & C).
    assert (N : negb (ne rc && ne jc) = true <-> rc = [] \/ jc = []) by (destruct rc, jc; cbn; intuition congruence).
    destruct (negb (ne rc && ne jc)) eqn:E.
    + assert (P : rc = [] \/ jc = []) by now apply N. split; [intros <-; now apply (ug_empty _ _ _ x y)|]. intros H; inversion H; subst; try reflexivity; try (exfalso; tauto). exfalso. eapply H0. reflexivity.
    + assert (P : rc <> [] /\ jc <> []) by (split; intros K; destruct N as [_ N]; discriminate N; auto). destruct P as [Hr Hj].
      assert (CH : forall cs, chunks rc jc s cs -> cs = from_first (fields jc (split rc s))) by (intros cs; now apply chunks_iff).
      assert (CI : chunks rc jc s (from_first (fields jc (split rc s)))) by now apply chunks_iff.
      apply gives.
      * destruct (unrange_loop jc (split rc s) []) as [[l|]|e] eqn:L; cbn [rbind]; apply loop_iff in L; [eapply ug_range|eapply ug_left|eapply ug_bad]; eassumption.
      * assert (W : forall a, unrange_gives rc jc s a -> exists w, written_out (from_first (fields jc (split rc s))) w /\ a = match w with Ok (Some l) => becomes (VStr (join jc l)) | Ok None => becomes (VStr s) | Raise e => Raise e end).
        { intros a H; inversion H; subst; try (exfalso; tauto); try solve [exfalso; eapply H0; reflexivity]; match goal with K : chunks _ _ _ _ |- _ => apply CH in K; subst end; eexists; (split; [eassumption|reflexivity]). }
        intros a b Ha Hb. apply W in Ha, Hb. destruct Ha as (wa & Ha & ->). destruct Hb as (wb & Hb & ->). now rewrite (written_one _ _ Ha _ Hb).
  - assert (P : forall x y, s <> x ++ rc ++ y) by (intros x y ->; assert (containsb rc (x ++ rc ++ y) = true) by (apply containsb_spec; eauto); congruence).
    split; [intros <-; now apply ug_plain|]. intros H; inversion H; subst; try reflexivity; exfalso; eapply P; reflexivity.
Qed.
