(** * GroupExact: when exactly the group functions fail, and what expand can give back. *)
From Verif Require Import PyBase DictFacts StrFacts Regex Tree Results ResultsFacts MatchFuncs SpecMatch MatchFacts GroupFuncs SpecGroup MachineFacts GroupFacts.
Local Open Scope string_scope.
Local Open Scope list_scope.

(** ** contains_val *)
Lemma contains_val_unfold k s st d : fs_data st = VDict d ->
  g_contains_val k (VStr s) st =
  do b <- val_in (resolve (e_vars (fs_env st)) s) (value_or d k (VStr [])); if negb b then reject st else keep st.
Proof. intros Hd. unfold g_contains_val, var_or_self, get_data. rewrite Hd. reflexivity. Qed.
Theorem contains_val_answers k s st d : fs_data st = VDict d ->
  ((exists r, g_contains_val k (VStr s) st = Ok r) <-> searchable (value_or d k (VStr [])) (resolve (e_vars (fs_env st)) s)) /\
  (~ searchable (value_or d k (VStr [])) (resolve (e_vars (fs_env st)) s) -> g_contains_val k (VStr s) st = Raise TypeError).
Proof.
  intros Hd. rewrite (contains_val_unfold k s st d Hd).
  set (x := value_or d k (VStr [])). set (v := resolve (e_vars (fs_env st)) s).
  assert (K : (exists b, val_in v x = Ok b /\ searchable x v) \/ (val_in v x = Raise TypeError /\ ~ searchable x v)).
  { destruct x; cbn [val_in searchable]; try (right; split; [reflexivity|tauto]).
    - destruct v; try (right; split; [reflexivity|intros [p Hp]; discriminate]). left. eauto.
    - left. eauto.
    - destruct v; cbn [bool_number key_of rbind]; try (right; split; [reflexivity|intros [[q Hq]|[q Hq]]; discriminate]); left; eexists; split; try reflexivity; eauto. }
  destruct K as [(b & Hb & Hs)|[Hb Hs]]; rewrite Hb; cbn [rbind].
  - split; [|tauto]. split; [tauto|]. intros _. destruct b; eexists; reflexivity.
  - split; [|reflexivity]. split; [intros [r Hr]; discriminate|tauto].
Qed.

(** ** expand *)
Lemma follow_app p q : forall v, follow (p ++ q) v = match follow p v with Some w => follow q w | None => None end.
Proof.
  induction p as [|k p IH]; intros v; [reflexivity|]. cbn [app follow].
  destruct v; try reflexivity. destruct (dget d (KS k)); [apply IH|reflexivity].
Qed.
Lemma unrelated_not_inv l : ~ unrelated_keys l -> NoDup l -> exists a b, In a l /\ In b l /\ a <> b /\ conflict a b.
Proof.
  assert (D : forall p q : list str, prefix_of p q \/ ~ prefix_of p q).
  { induction p as [|x p IH]; intros q; [left; exists q; reflexivity|]. destruct q as [|y q].
    - right. intros [r Hr]. discriminate.
    - destruct (str_eqb x y) eqn:E.
      + apply str_eqb_eq in E as ->. destruct (IH q) as [[r ->]|H]; [left; exists r; reflexivity|].
        right. intros [r Hr]. apply H. exists r. now injection Hr.
      + right. intros [r Hr]. injection Hr as -> _. rewrite str_eqb_refl in E. discriminate. }
  induction l as [|k l IH]; intros Hn Hd; [exfalso; apply Hn; constructor|]. inversion Hd as [|? ? Hk Hl]; subst.
  assert (E : Forall (fun k' => ~ conflict k k' /\ ~ conflict k' k) l \/ exists k', In k' l /\ (conflict k k' \/ conflict k' k)).
  { clear - D. induction l as [|x l IH]; [left; constructor|].
    destruct (D (split $"." k) (split $"." x)) as [A|A]; [right; exists x; split; [now left|now left]|].
    destruct (D (split $"." x) (split $"." k)) as [B|B]; [right; exists x; split; [now left|now right]|].
    destruct IH as [IH|(k' & Hk' & Hc)]; [left; now constructor|]. right. exists k'. split; [now right|exact Hc]. }
  destruct E as [E|(k' & Hk' & [Hc|Hc])].
  - destruct IH as (a & b & Ha & Hb & Hab); [intros Hu; apply Hn; now constructor|exact Hl|].
    exists a, b. simpl. tauto.
  - exists k, k'. simpl. repeat split; auto. intros ->. contradiction.
  - exists k', k. simpl. repeat split; auto. intros ->. contradiction.
Qed.
Lemma split_dot_inj a b : split $"." a = split $"." b -> a = b.
Proof. intros H. rewrite <- (join_split $"." a) by discriminate. rewrite H. now apply join_split. Qed.
Theorem expand_gives_back e st : fs_data st = VDict (named e) -> NoDup (map fst e) ->
  Forall (fun kv => forall d, snd kv <> VDict d) e ->
  ((exists r, g_expand st = Ok (with_data st r, true) /\ forall k v, In (k, v) e -> follow (split $"." k) r = Some v)
   <-> unrelated_keys (map fst e)).
Proof.
  intros Hst Hd Hs. split.
  - intros (r & _ & Hr).
    assert (K : unrelated_keys (map fst e) \/ ~ unrelated_keys (map fst e)).
    { assert (C : forall a b, conflict a b \/ ~ conflict a b).
      { intros a b. unfold conflict. generalize (split $"." a), (split $"." b). induction l as [|x p IH]; intros q; [left; exists q; reflexivity|].
        destruct q as [|y q]; [right; intros [z Hz]; discriminate|].
        destruct (str_eqb x y) eqn:E.
        + apply str_eqb_eq in E as ->. destruct (IH q) as [[z ->]|H]; [left; exists z; reflexivity|].
          right. intros [z Hz]. apply H. exists z. now injection Hz.
        + right. intros [z Hz]. injection Hz as -> _. rewrite str_eqb_refl in E. discriminate. }
      generalize (map fst e). induction l as [|k l IH]; [left; constructor|].
      destruct IH as [IH|IH]; [|right; intros H; inversion H; contradiction].
      assert (F : Forall (fun k' => ~ conflict k k' /\ ~ conflict k' k) l \/ ~ Forall (fun k' => ~ conflict k k' /\ ~ conflict k' k) l).
      { clear IH. induction l as [|x l IHl]; [left; constructor|].
        destruct (C k x) as [A|A]; [right; intros H; inversion H; tauto|].
        destruct (C x k) as [B|B]; [right; intros H; inversion H; tauto|].
        destruct IHl as [G|G]; [left; now constructor|right; intros H; inversion H; contradiction]. }
      destruct F as [F|F]; [left; now constructor|right; intros H; inversion H; contradiction]. }
    destruct K as [K|K]; [exact K|]. exfalso.
    destruct (unrelated_not_inv _ K Hd) as (a & b & Ha & Hb & Hab & [q Hq]).
    apply in_map_iff in Ha as ([a' va] & Ea & Ha). apply in_map_iff in Hb as ([b' vb] & Eb & Hb). cbn in Ea, Eb. subst a' b'.
    pose proof (Hr _ _ Ha) as Ra. pose proof (Hr _ _ Hb) as Rb. rewrite Hq, follow_app, Ra in Rb.
    destruct q as [|x q].
    + apply Hab. apply split_dot_inj. now rewrite Hq, app_nil_r.
    + rewrite Forall_forall in Hs. specialize (Hs _ Ha). cbn in Hs, Rb. destruct va; try discriminate. now apply (Hs d).
  - intros Hu. destruct (expand_spec e st Hst Hu) as (r & H1 & H2 & _). eauto.
Qed.

(** ** lookup *)
Theorem group_lookup_no_table table path k add rep upd st d : fs_data st = VDict d -> no_table path table ->
  (forall x, dget d (KS k) = Some x -> exists kk, key_of x = Ok kk) ->
  group_lookup_in table path k add rep upd st = Ok (st, true).
Proof.
  intros Hd Ht Hk. unfold group_lookup_in. rewrite (walk_no_table path table Ht). cbn [rbind]. rewrite Hd. cbn [sub_data rbind].
  destruct (dget d (KS k)) as [x|]; [|reflexivity]. destruct (Hk x eq_refl) as [kk Hkk]. rewrite (hashed_key _ _ Hkk), Hkk. reflexivity.
Qed.
Lemma walk_follow path : forall v x, follow path v = Some x -> walk_get path v = Ok x.
Proof.
  induction path as [|i p IH]; intros v x; cbn [follow walk_get]; [now intros [= ->]|].
  destruct v; try discriminate. destruct (dget d (KS i)); [apply IH|discriminate].
Qed.
Theorem group_lookup_not_table table path k add rep upd st d x : fs_data st = VDict d ->
  follow path table = Some x -> (forall t, x <> VDict t) ->
  group_lookup_in table path k add rep upd st =
  Ok (with_data st (VDict match add with Some n => dset d (KS n) VNone | None => if rep then dset d (KS k) VNone else d end), true).
Proof.
  intros Hd Hf Hx. unfold group_lookup_in. rewrite (walk_follow path table x Hf). cbn [rbind].
  assert (E : forall f : dict -> res (option val), (match x with VDict d0 => f d0 | _ => Ok (Some VNone) end) = Ok (Some VNone)).
  { intros f. destruct x; try reflexivity. exfalso. now apply (Hx d0). }
  rewrite E. cbn [rbind]. unfold laction_of. destruct add as [n|].
  - unfold set_data. rewrite Hd. reflexivity.
  - destruct upd; cbn [andb]; destruct rep; try (unfold set_data; rewrite Hd; reflexivity); unfold keep, with_data;
      rewrite <- Hd; destruct st; reflexivity.
Qed.
