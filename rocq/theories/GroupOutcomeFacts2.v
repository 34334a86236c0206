(** * GroupOutcomeFacts2: the group functions that change the data (C134). *)
From Verif Require Import PyBase DictFacts StrFacts Regex Tree Results ResultsFacts MatchFuncs SpecMatch MatchFacts GroupFuncs SpecGroup GroupFacts SpecVariable SpecText TextFacts SpecCalls SpecOutcome OutcomeFacts OutcomeFacts2 SpecGroupOutcome GroupOutcomeFacts.
Local Open Scope string_scope.
Local Open Scope list_scope.

(** ** del, items2dict *)
Lemma taken_iff (d : dict) k x d' : taken d k x d' <-> dget d k = Some x /\ ddel d k = d'.
Proof.
  revert d'. induction d as [|[j y] d IH]; intros d'; cbn [dget ddel].
  - split; [intros (a & b & H & _); destruct a; discriminate|intros [H _]; discriminate].
  - destruct (key_eqb_spec k j) as [->|N].
    + split.
      * intros (a & b & H & -> & K). destruct a as [|p a]; [cbn [app] in H; injection H as H1 H2; subst; auto|].
        exfalso. cbn [app] in H. injection H as H1 H2. subst p. apply (K y). now left.
      * intros [[= ->] ->]. exists [], d'. repeat split. intros z [].
    + split.
      * intros (a & b & H & -> & K). destruct a as [|p a]; cbn [app] in *; injection H as H1 H2; [congruence|]. subst p d.
        destruct (proj1 (IH (a ++ b))) as [E1 E2]; [exists a, b; repeat split; intros z Z; apply (K z); now right|]. now rewrite E1, E2.
      * intros [E <-]. destruct (proj2 (IH (ddel d k)) (conj E eq_refl)) as (a & b & H & H2 & K). exists ((j, y) :: a), b. cbn [app]. rewrite H at 1. rewrite H2. repeat split.
        intros z [Z|Z]; [congruence|exact (K z Z)].
Qed.
Lemma taken_ex d k x : dget d k = Some x -> taken d k x (ddel d k). Proof. intros H. now apply taken_iff. Qed.
Fixpoint del_keys (args : list str) (v : val) : res val :=
  match args with
  | [] => Ok v
  | k :: t => do b <- py_in k v;
              if b then match v with VDict d => del_keys t (VDict (ddel d (KS k))) | VList _ => Raise TypeError | _ => Raise AttributeError end
              else del_keys t v
  end.
Lemma del_iff args : forall v r, del_keys args v = r <-> del_to args v r.
Proof.
  induction args as [|k args IH]; intros v r; cbn [del_keys].
  - split; [intros <-; constructor|intros K; now inversion K].
  - split.
    + intros <-. destruct (py_in k v) as [b|e] eqn:E; cbn [rbind]; apply text_in_iff in E; [|now apply dl_bad].
      destruct b; [|apply dl_absent; [exact E|now apply IH]].
      destruct v as [|b|z|s|l|d|n]; try (inversion E; fail); [now apply dl_text|now apply dl_list|]. apply in_dict in E as [x E].
      eapply dl_there; [apply taken_ex, E|now apply IH].
    + intros K. inversion K; subst; try (match goal with A : text_in k _ _ |- _ => apply text_in_iff in A; rewrite A end; cbn [rbind]); try reflexivity; [now apply IH|].
      match goal with A : taken _ _ _ _ |- _ => apply taken_iff in A as [T1 T2] end. cbn [py_in]. unfold dmem. rewrite T1. cbn [rbind]. apply IH. now rewrite T2.
Qed.
Lemma del_is args : forall st, g_del args st = do v <- del_keys args (fs_data st); Ok (holding st v, true).
Proof.
  induction args as [|k args IH]; intros st; cbn [g_del del_keys rbind]; [unfold keep; now rewrite holding_self|].
  destruct (py_in k (fs_data st)) as [[|]|]; cbn [rbind]; [|apply IH|reflexivity]. destruct (fs_data st) eqn:D; try reflexivity. rewrite IH. reflexivity.
Qed.
Theorem g_del_iff args st r : g_del args st = r <-> changes st (del_to args (fs_data st)) r.
Proof. rewrite del_is. apply changes_iff. intros r'. apply del_iff. Qed.
Lemma no_entry (d : dict) k : (forall x, ~ In (k, x) d) <-> dget d k = None.
Proof.
  split.
  - intros H. destruct (dget d k) as [x|] eqn:E; [|reflexivity]. exfalso. apply (H x). now apply dget_In.
  - intros E x H. apply (proj1 (dget_None_notin d k) E). apply in_map_iff. exists (k, x). auto.
Qed.
Lemma del_other (d : dict) j k : j <> k -> dget (ddel d k) j = dget d j.
Proof. intros N. apply dget_ddel_other. congruence. Qed.
Theorem g_items2dict_iff kn vn st r : g_items2dict kn vn st = r <-> items2dict_gives kn vn st r.
Proof.
  split.
  - intros <-. unfold g_items2dict. destruct (py_in kn (fs_data st)) as [[|]|e] eqn:E1; cbn [rbind negb]; apply text_in_iff in E1; [|now apply i2_no_key|now apply i2_bad].
    destruct (py_in vn (fs_data st)) as [[|]|e] eqn:E2; cbn [rbind negb]; [|apply text_in_iff in E2; now apply i2_no_value|].
    2: { exfalso. apply (py_in_raises vn kn) in E2. apply text_in_iff in E1. congruence. }
    apply text_in_iff in E2. destruct (fs_data st) as [|b|z|s|l|d|n] eqn:D; try (inversion E1; fail).
    + eapply i2_text; eassumption.
    + eapply i2_list; eassumption.
    + apply in_dict in E1 as [x E1]. apply in_dict in E2 as [v E2]. rewrite E2.
      destruct (dget (ddel d (KS vn)) (KS kn)) as [kv|] eqn:E3.
      * destruct (looked_dec kv) as [[k K]|K]; rewrite K; cbn [rbind].
        -- eapply i2_pair; [exact D|apply taken_ex, E2|apply taken_ex, E3|now apply looked_iff].
        -- eapply i2_unhashable; [exact D|apply taken_ex, E2|apply taken_ex, E3|now apply looked_bad].
      * destruct (str_eqb kn vn) eqn:Q.
        -- apply str_eqb_eq in Q. eapply i2_same; [exact Q|exact D|apply taken_ex, E2|now apply no_entry].
        -- exfalso. rewrite del_other in E3 by (intros [= H]; rewrite H, str_eqb_refl in Q; discriminate). congruence.
  - intros K. unfold g_items2dict. destruct K as [K|K1 K2|d v d1 x d2 k D T1 T2 L|d v d1 x d2 D T1 T2 L|d v d1 Q D T1 N|l D K1 K2|s D K1 K2|e K].
    + apply text_in_iff in K. now rewrite K.
    + apply text_in_iff in K1, K2. now rewrite K1, K2.
    + apply taken_iff in T1 as [T1 <-], T2 as [T2 <-]. apply looked_iff in L.
      assert (P : exists y, dget d (KS kn) = Some y). { destruct (str_eqb kn vn) eqn:Q; [apply str_eqb_eq in Q; subst; eauto|]. rewrite del_other in T2 by (intros [= H]; rewrite H, str_eqb_refl in Q; discriminate). eauto. }
      destruct P as [y P]. rewrite D. cbn [py_in]. unfold dmem. rewrite P, T1. cbn [rbind negb]. rewrite T2, L. reflexivity.
    + apply taken_iff in T1 as [T1 <-], T2 as [T2 <-]. apply looked_bad in L.
      assert (P : exists y, dget d (KS kn) = Some y). { destruct (str_eqb kn vn) eqn:Q; [apply str_eqb_eq in Q; subst; eauto|]. rewrite del_other in T2 by (intros [= H]; rewrite H, str_eqb_refl in Q; discriminate). eauto. }
      destruct P as [y P]. rewrite D. cbn [py_in]. unfold dmem. rewrite P, T1. cbn [rbind negb]. rewrite T2, L. reflexivity.
    + apply taken_iff in T1 as [T1 <-]. apply no_entry in N. subst kn. rewrite D. cbn [py_in]. unfold dmem. rewrite T1. cbn [rbind negb]. now rewrite N.
    + apply text_in_iff in K1, K2. rewrite D, K1, K2. reflexivity.
    + apply text_in_iff in K1, K2. rewrite D, K1, K2. reflexivity.
    + apply text_in_iff in K. now rewrite K.
Qed.

(** ** set and record *)
Lemma value_for_iff env source default v :
  value_for env source default v <->
  match dget (e_vars env) (KS source) with Some x => x | None => match dget (e_gvars env) (KS source) with Some x => x | None => match default with Some x => x | None => VStr source end end end = v.
Proof.
  split.
  - intros K; destruct K as [x H|x H1 H2|x H1 H2 H3|H1 H2 H3]; rewrite ?H, ?H1, ?H2, ?H3; reflexivity.
  - intros <-. destruct (dget (e_vars env) (KS source)) eqn:A; [now apply vf_var|]. destruct (dget (e_gvars env) (KS source)) eqn:B; [now apply vf_global|].
    destruct default; [now apply vf_default|now apply vf_self].
Qed.
Lemma named_iff source target t : named source target t <-> match target with Some t => t | None => source end = t.
Proof. split; [intros K; now destruct K|]. intros <-. destruct target; constructor. Qed.
Theorem g_set_iff source target default st r : g_set source target default st = r <-> changes st (set_to source target default st) r.
Proof.
  unfold g_set. split.
  - intros <-. destruct (dict_dec (fs_data st)) as [[d Hd]|Hd].
    + rewrite Hd. unfold keep. rewrite holding_with. apply ch_ok. apply se_dict; [exact Hd|now apply value_for_iff|now apply named_iff].
    + replace (match fs_data st with VDict d => _ | _ => Raise AttributeError end) with (@Raise (fstate * bool) AttributeError) by (destruct (fs_data st); try reflexivity; absurd).
      apply ch_bad. now apply se_bad.
  - intros K; destruct K as [v K|e K]; inversion K; subst.
    + match goal with A : fs_data st = _, B : value_for _ _ _ _, C : named _ _ _ |- _ => apply value_for_iff in B; apply named_iff in C; rewrite A, B, C end. reflexivity.
    + destruct (fs_data st); try reflexivity. absurd.
Qed.
Theorem g_record_iff source target st r : g_record source target st = r <-> record_gives source target st r.
Proof.
  unfold g_record. split.
  - intros <-. destruct (py_in source (fs_data st)) as [[|]|e] eqn:E; cbn [rbind]; apply text_in_iff in E; [|now apply re_absent|now apply re_bad].
    destruct (dict_dec (fs_data st)) as [[d Hd]|Hd].
    + rewrite Hd in E. apply in_dict in E as [x E]. rewrite Hd at 1. cbn [sub_data rbind]. rewrite E. eapply re_there; [exact Hd|exact E|now apply named_iff].
    + rewrite sub_no_dict by exact Hd. now apply re_no_dict.
  - intros K; destruct K as [K|d v t Hd E N|Hd K|e K].
    + apply text_in_iff in K. now rewrite K.
    + apply named_iff in N. rewrite N, Hd. cbn [py_in sub_data]. unfold dmem. rewrite E. cbn [rbind]. reflexivity.
    + apply text_in_iff in K. rewrite K. cbn [rbind]. now rewrite sub_no_dict.
    + apply text_in_iff in K. now rewrite K.
Qed.

(** ** to_int *)
Section Floats.
Variables (float_of_str : str -> option nat) (int_of_obj : nat -> option Z) (float_of_obj : nat -> option nat).
Notation conv := (int_or_float float_of_str int_of_obj float_of_obj).
Lemma number_for_iff v w : conv v = w <-> number_for float_of_str int_of_obj float_of_obj v w.
Proof.
  split.
  - intros <-. destruct v as [|b|z|s|l|d|n]; cbn [int_or_float].
    + apply nf_none.
    + apply nf_number. destruct b; constructor.
    + apply nf_number. constructor.
    + destruct (py_int s) eqn:E; [now apply nf_int|]. destruct (float_of_str s) eqn:F; [now apply nf_float|now apply nf_text].
    + apply nf_list.
    + apply nf_dict.
    + destruct (int_of_obj n) eqn:E; [now apply nf_obj_int|]. destruct (float_of_obj n) eqn:F; [now apply nf_obj_float|now apply nf_obj].
  - intros K; destruct K; cbn [int_or_float]; repeat match goal with A : _ = Some _ |- _ => rewrite A | A : _ = None |- _ => rewrite A end; try reflexivity.
    match goal with A : number_of _ _ |- _ => destruct A; reflexivity end.
Qed.
Lemma numbers_iff l l' : Forall2 (number_for float_of_str int_of_obj float_of_obj) l l' <-> map conv l = l'.
Proof.
  split.
  - induction 1 as [|x y l l' H _ IH]; [reflexivity|]. cbn [map]. apply number_for_iff in H. now rewrite H, IH.
  - intros <-. induction l; constructor; [now apply number_for_iff|assumption].
Qed.
Definition conv_in (intlist : bool) (v : val) : val := match conv v with VList l => if intlist then VList (map conv l) else VList l | w => w end.
Lemma conv_list v l : conv v = VList l -> v = VList l.
Proof. destruct v; cbn [int_or_float]; try congruence; repeat match goal with |- context[match ?x with _ => _ end] => destruct x end; congruence. Qed.
Lemma converted_iff intlist v w : converted float_of_str int_of_obj float_of_obj intlist v w <-> conv_in intlist v = w.
Proof.
  unfold conv_in. split.
  - intros K; destruct K as [l l' -> H|v w H K].
    + cbn [int_or_float]. apply numbers_iff in H. now rewrite H.
    + apply number_for_iff in K. rewrite K. destruct w; try reflexivity. apply conv_list in K. subst v. destruct H as [->|H]; [reflexivity|absurd].
  - intros <-. destruct (conv v) as [|b|z|s|l|d|n] eqn:E; try (apply cv_one; [right; intros l L; subst v; discriminate|now apply number_for_iff]).
    pose proof (conv_list v l E). subst v. destruct intlist; [apply cv_list; [reflexivity|now apply numbers_iff]|apply cv_one; [now left|now apply number_for_iff]].
Qed.
Lemma key_is intlist d k : to_int_key float_of_str int_of_obj float_of_obj intlist d k = match dget d k with Some v => dset d k (conv_in intlist v) | None => d end.
Proof. unfold to_int_key, conv_in. destruct (dget d k) as [v|]; [|reflexivity]. destruct (conv v), intlist; reflexivity. Qed.
Lemma keys_conv intlist ks : forall d d', fold_left (to_int_key float_of_str int_of_obj float_of_obj intlist) ks d = d' <-> keys_converted float_of_str int_of_obj float_of_obj intlist ks d d'.
Proof.
  induction ks as [|k ks IH]; intros d d'; cbn [fold_left].
  - split; [intros <-; constructor|intros K; now inversion K].
  - rewrite key_is. destruct (dget d k) as [v|] eqn:E.
    + split.
      * intros K. eapply kc_there; [exact E|now apply converted_iff|now apply IH].
      * intros K; inversion K; subst; [congruence|]. match goal with A : converted _ _ _ _ _ _ |- _ => apply converted_iff in A; subst end. assert (x = v) by congruence. subst. now apply IH.
    + split.
      * intros K. apply kc_absent; [exact E|now apply IH].
      * intros K; inversion K; subst; [now apply IH|congruence].
Qed.
Theorem g_to_int_iff keys intlist st r : g_to_int float_of_str int_of_obj float_of_obj keys intlist st = r <-> changes st (to_int_to float_of_str int_of_obj float_of_obj keys intlist (fs_data st)) r.
Proof.
  set (f := match fs_data st with VDict d => Ok (VDict (fold_left (to_int_key float_of_str int_of_obj float_of_obj intlist) (match keys with [] => dkeys d | _ => map KS keys end) d))
            | _ => match keys with [] => Raise AttributeError | _ => Raise TypeError end end).
  assert (E : g_to_int float_of_str int_of_obj float_of_obj keys intlist st = do v <- f; Ok (holding st v, true)).
  { unfold g_to_int, f. destruct (fs_data st), keys; reflexivity. }
  rewrite E. apply changes_iff. clear E. unfold f. generalize (fs_data st). intros v r'. split.
  - intros <-. destruct v as [|b|z|s|l|d|n]; try (destruct keys; [apply tn_no_keys|apply tn_no_dict]; solve [other|reflexivity|discriminate]).
    destruct keys as [|k keys]; [apply tn_all; [reflexivity|now apply keys_conv]|apply tn_some; [discriminate|now apply keys_conv]].
  - intros K; destruct K as [d d' N K|d d' N K|v H N|v H N].
    + apply keys_conv in K. destruct keys; [contradiction|]. now rewrite K.
    + apply keys_conv in K. subst keys. unfold dkeys. now rewrite K.
    + subst keys. destruct v; try reflexivity. absurd.
    + destruct keys; [contradiction|]. destruct v; try reflexivity. absurd.
Qed.
End Floats.

(** ** expand *)
Lemma put_iff ks : ks <> [] -> forall v x r, nest_set ks v x = r <-> put_below ks v x r.
Proof.
  induction ks as [|k ks IH]; intros N v x r; [contradiction|]. destruct ks as [|k' ks].
  - cbn [nest_set]. split.
    + intros <-. destruct x; try (apply pb_lost; other). constructor.
    + intros K; inversion K; subst; [reflexivity|]. destruct x; try reflexivity. absurd.
  - specialize (IH ltac:(discriminate)). change (nest_set (k :: k' :: ks) v x) with
      (match x with VDict d => do sub <- nest_set (k' :: ks) v (match dget d (KS k) with Some y => y | None => VDict [] end); Ok (VDict (dset d (KS k) sub)) | _ => Raise AttributeError end).
    split.
    + intros <-. destruct x as [|b|z|s|l|d|n]; try (apply pb_bad; other).
      destruct (dget d (KS k)) as [y|] eqn:D.
      * destruct (nest_set (k' :: ks) v y) as [w|e] eqn:E; cbn [rbind]; apply IH in E; [eapply pb_down|eapply pb_fails]; eassumption.
      * destruct (nest_set (k' :: ks) v (VDict [])) as [w|e] eqn:E; cbn [rbind].
        -- apply IH in E. eapply pb_new; eassumption.
        -- exfalso. clear -E. revert e E. generalize (k' :: ks). intros l. clear. assert (H : exists w, nest_set l v (VDict []) = Ok w).
           { induction l as [|a l [w IH]]; [cbn; eauto|]. destruct l as [|b l]; [cbn; eauto|].
             change (nest_set (a :: b :: l) v (VDict [])) with (do sub <- nest_set (b :: l) v (VDict []); Ok (VDict (dset [] (KS a) sub))). rewrite IH. cbn [rbind]. eauto. }
           destruct H as [w ->]. discriminate.
    + intros K; inversion K; subst; repeat match goal with A : dget _ _ = _ |- _ => rewrite A end.
      1-3: match goal with A : put_below _ _ _ _ |- _ => apply IH in A; rewrite A; reflexivity end.
      destruct x; try reflexivity. absurd.
Qed.
Lemma dots_iff n parts : cut_at (t_ ".") n parts <-> split [dot] n = parts.
Proof. symmetry. apply cut_iff. discriminate. Qed.
Lemma expanded_iff d : forall v r, rfold expand_one d v = r <-> expanded d v r.
Proof.
  induction d as [|[k x] d IH]; intros v r; cbn [rfold].
  - split; [intros <-; constructor|intros K; now inversion K].
  - unfold expand_one at 1. cbn [fst snd]. destruct k as [n|z|].
    + split.
      * intros <-. destruct (nest_set (split [dot] n) x v) as [v'|e] eqn:E; cbn [rbind]; apply put_iff in E; try apply split_ne.
        -- eapply ep_next; [now apply dots_iff|exact E|now apply IH].
        -- eapply ep_fails; [now apply dots_iff|exact E].
      * intros K; inversion K; subst; try (match goal with A : cut_at _ _ _ |- _ => apply dots_iff in A; subst end; match goal with A : put_below _ _ _ _ |- _ => apply put_iff in A; [rewrite A|apply split_ne] end; cbn [rbind]).
        -- now apply IH.
        -- reflexivity.
        -- exfalso. match goal with A : forall m, KS n <> KS m |- _ => exact (A n eq_refl) end.
    + split; [intros <-; apply ep_bad; other|]. intros K; now inversion K.
    + split; [intros <-; apply ep_bad; other|]. intros K; now inversion K.
Qed.
Theorem g_expand_iff st r : g_expand st = r <-> changes st (expand_to (fs_data st)) r.
Proof.
  set (f := match fs_data st with VDict d => rfold expand_one d (VDict []) | v => Ok v end).
  assert (E : g_expand st = do v <- f; Ok (holding st v, true)).
  { unfold g_expand, f. destruct (fs_data st) eqn:D; cbn [rbind]; try (rewrite holding_data by exact D; reflexivity). destruct (rfold expand_one d (VDict [])); reflexivity. }
  rewrite E. apply changes_iff. clear E. unfold f. generalize (fs_data st). intros v r'. split.
  - intros <-. destruct v; try (apply et_other; other). apply et_dict. now apply expanded_iff.
  - intros K; destruct K as [d r' K|v K]; [now apply expanded_iff|]. destruct v; try reflexivity. absurd.
Qed.
