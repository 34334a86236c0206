(** * GroupFacts: facts about the group functions. *)
From Verif Require Import PyBase DictFacts StrFacts Regex Tree Results ResultsFacts MatchFuncs SpecMatch GroupFuncs SpecGroup MachineFacts.
Local Open Scope string_scope.
Local Open Scope list_scope.

Lemma py_in_dict v d : py_in v (VDict d) = Ok (dmem d (KS v)).
Proof. reflexivity. Qed.

Lemma is_default_spec st d v x : fs_data st = VDict d -> dget d (KS v) = Some x ->
  is_default st v = Ok (match dget (fs_defaults st) (KS v) with Some y => py_eq y x | None => false end).
Proof.
  intros Hd Hx. unfold is_default. destruct (dget (fs_defaults st) (KS v)); [|reflexivity].
  rewrite Hd. cbn [sub_data rbind]. now rewrite Hx.
Qed.

Lemma matched_dec d D v x : dget d (KS v) = Some x ->
  (matched d D v <-> match dget D (KS v) with Some y => py_eq y x | None => false end = false).
Proof.
  intros Hx. unfold matched. split.
  - intros (x' & Hx' & H). rewrite Hx in Hx'. injection Hx' as <-. destruct (dget D (KS v)); [|reflexivity]. now apply H.
  - intros H. exists x. split; [exact Hx|]. intros y Hy. now rewrite Hy in H.
Qed.

(** ** the presence tests *)
Lemma containsall_spec args : forall st d, fs_data st = VDict d ->
  exists b, g_containsall args st = Ok (st, b) /\ (b = true <-> Forall (matched d (fs_defaults st)) args).
Proof.
  induction args as [|v args IH]; intros st d Hd.
  - exists true. split; [reflexivity|]. split; constructor.
  - cbn [g_containsall]. rewrite Hd, py_in_dict. cbn [rbind]. unfold dmem.
    destruct (dget d (KS v)) as [x|] eqn:Ex.
    + rewrite (is_default_spec st d v x Hd Ex). cbn [rbind].
      destruct (match dget (fs_defaults st) (KS v) with Some y => py_eq y x | None => false end) eqn:Em.
      * exists false. split; [reflexivity|]. split; [discriminate|]. intros H. inversion H as [|? ? H1 _]; subst.
        apply (matched_dec d _ v x Ex) in H1. congruence.
      * destruct (IH st d Hd) as (b & -> & Hb). exists b. split; [reflexivity|]. rewrite Hb.
        rewrite Forall_cons_iff. rewrite (matched_dec d _ v x Ex). tauto.
    + exists false. split; [reflexivity|]. split; [discriminate|]. intros H. inversion H as [|? ? (y & Hy & _) _]; subst. congruence.
Qed.

Lemma contains_spec args : forall st d, fs_data st = VDict d -> 
  exists b, g_contains args st = Ok (st, b) /\
  (b = true <-> exists before v after, args = before ++ v :: after /\ Forall (fun w => ~ present d w) before /\ matched d (fs_defaults st) v).
Proof.
  induction args as [|v args IH]; intros st d Hd.
  - exists false. split; [reflexivity|]. split; [discriminate|]. intros (b & v & a & H & _). destruct b; discriminate.
  - cbn [g_contains]. rewrite Hd, py_in_dict. cbn [rbind]. unfold dmem.
    destruct (dget d (KS v)) as [x|] eqn:Ex.
    + rewrite (is_default_spec st d v x Hd Ex). cbn [rbind].
      assert (K : (exists before v0 after, v :: args = before ++ v0 :: after /\ Forall (fun w => ~ present d w) before /\
                matched d (fs_defaults st) v0) <-> matched d (fs_defaults st) v).
      { split.
        - intros ([|w b] & v0 & a & H & Hf & Hm); cbn in H; injection H as -> ->; [exact Hm|].
          inversion Hf as [|? ? H1 _]; subst. exfalso. apply H1. now exists x.
        - intros H. exists [], v, args. repeat split; [constructor|exact H]. }
      rewrite (matched_dec d _ v x Ex) in K.
      destruct (match dget (fs_defaults st) (KS v) with Some y => py_eq y x | None => false end) eqn:Em.
      * exists false. split; [reflexivity|]. rewrite K. split; discriminate.
      * exists true. split; [reflexivity|]. rewrite K. tauto.
    + destruct (IH st d Hd) as (b & -> & Hb). exists b. split; [reflexivity|]. rewrite Hb. split.
      * intros (be & v0 & a & -> & Hf & Hm). exists (v :: be), v0, a. repeat split; [|exact Hm].
        constructor; [|exact Hf]. intros (y & Hy). congruence.
      * intros ([|w be] & v0 & a & H & Hf & Hm); cbn in H; injection H as -> ->.
        -- destruct Hm as (y & Hy & _). congruence.
        -- inversion Hf; subst. exists be, v0, a. repeat split; assumption.
Qed.

Lemma contains_plain args st d : fs_data st = VDict d -> Forall (no_default (fs_defaults st)) args ->
  exists b, g_contains args st = Ok (st, b) /\ (b = true <-> Exists (present d) args).
Proof.
  intros Hd Hn. destruct (contains_spec args st d Hd) as (b & Hb & H). exists b. split; [exact Hb|]. rewrite H. clear Hb H b.
  split.
  - intros (be & v & a & -> & _ & (x & Hx & _)). apply Exists_app. right. constructor. now exists x.
  - intros HE. induction args as [|v args IH]; [inversion HE|].
    inversion Hn as [|? ? Hv Hn']; subst. destruct (dget d (KS v)) as [x|] eqn:Ex.
    + exists [], v, args. repeat split; [constructor|]. exists x. split; [exact Ex|]. intros y Hy.
      unfold no_default in Hv. congruence.
    + inversion HE as [? ? (y & Hy)|? ? HE']; subst; [congruence|].
      destruct (IH Hn' HE') as (be & w & a & -> & Hf & Hm). exists (v :: be), w, a. repeat split; [|exact Hm].
      constructor; [|exact Hf]. intros (y & Hy). congruence.
Qed.

Lemma exclude_spec args : forall st d, fs_data st = VDict d ->
  exists b, g_exclude args st = Ok (st, b) /\
  (b = true <-> Forall (fun v => present d v -> ~ no_default (fs_defaults st) v) args).
Proof.
  induction args as [|v args IH]; intros st d Hd.
  - exists true. split; [reflexivity|]. split; constructor.
  - cbn [g_exclude]. rewrite Hd, py_in_dict. cbn [rbind]. destruct (dmem d (KS v)) eqn:Em.
    + destruct (dmem (fs_defaults st) (KS v)) eqn:ED.
      * destruct (IH st d Hd) as (b & -> & Hb). exists b. split; [reflexivity|]. rewrite Hb, Forall_cons_iff.
        apply dmem_true in ED as (y & Hy). unfold no_default. split; [|tauto]. intros H. split; [|exact H]. congruence.
      * exists false. split; [reflexivity|]. split; [discriminate|]. intros H. inversion H as [|? ? H1 _]; subst.
        exfalso. apply H1; [now apply dmem_true|now apply dmem_false].
    + destruct (IH st d Hd) as (b & -> & Hb). exists b. split; [reflexivity|]. rewrite Hb, Forall_cons_iff.
      apply dmem_false in Em. split; [|tauto]. intros H. split; [|exact H]. intros (y & Hy). congruence.
Qed.

Lemma exclude_plain args st d : fs_data st = VDict d -> Forall (no_default (fs_defaults st)) args ->
  exists b, g_exclude args st = Ok (st, b) /\ (b = true <-> ~ Exists (present d) args).
Proof.
  intros Hd Hn. destruct (exclude_spec args st d Hd) as (b & Hb & H). exists b. split; [exact Hb|]. rewrite H.
  rewrite <- Forall_Exists_neg. rewrite Forall_forall in Hn. rewrite !Forall_forall. split; intros K v Hv.
  - intros Hp. now apply (K v Hv Hp), Hn.
  - intros Hp. now destruct (K v Hv).
Qed.

Lemma found_vars_spec args : forall st d, fs_data st = VDict d ->
  found_vars args st = Ok (filter (fun v => (dmem d (KS v) && negb (dmem (fs_defaults st) (KS v)))%bool) args).
Proof.
  induction args as [|v args IH]; intros st d Hd; [reflexivity|].
  cbn [found_vars filter]. rewrite Hd, py_in_dict. cbn [rbind]. rewrite (IH st d Hd). cbn [rbind].
  destruct (dmem d (KS v)); [|reflexivity]. destruct (dmem (fs_defaults st) (KS v)); reflexivity.
Qed.
Lemma filter_len {A} (f : A -> bool) l : length (filter f l) <= length l.
Proof. induction l as [|x l IH]; simpl; [lia|]. destruct (f x); simpl; lia. Qed.
Lemma filter_same {A} (f : A -> bool) l : l = filter f l <-> Forall (fun x => f x = true) l.
Proof.
  split.
  - induction l as [|x l IH]; [constructor|]. simpl. destruct (f x) eqn:E.
    + intros H. injection H as H. constructor; auto.
    + intros H. exfalso. assert (K : length (x :: l) = length (filter f l)) by now rewrite <- H.
      pose proof (filter_len f l). simpl in K. lia.
  - induction 1 as [|x l Hx H IH]; [reflexivity|]. simpl. rewrite Hx. now f_equal.
Qed.
Lemma excludeall_spec args st d : fs_data st = VDict d ->
  exists b, g_excludeall args st = Ok (st, b) /\
  (b = false <-> Forall (fun v => present d v /\ no_default (fs_defaults st) v) args).
Proof.
  intros Hd. unfold g_excludeall. rewrite (found_vars_spec args st d Hd). cbn [rbind].
  set (f := fun v => (dmem d (KS v) && negb (dmem (fs_defaults st) (KS v)))%bool).
  assert (K : Forall (fun x => f x = true) args <-> Forall (fun v => present d v /\ no_default (fs_defaults st) v) args).
  { rewrite !Forall_forall. unfold f. split; intros H v Hv.
    - specialize (H v Hv). apply andb_prop in H as [H1 H2]. apply negb_true_iff in H2.
      split; [now apply dmem_true|now apply dmem_false].
    - destruct (H v Hv) as [H1 H2]. apply dmem_true in H1. apply dmem_false in H2. rewrite H1, H2. reflexivity. }
  rewrite <- filter_same in K. destruct (path_eqb_spec args (filter f args)) as [E|E].
  - exists false. split; [reflexivity|]. tauto.
  - exists true. split; [reflexivity|]. split; [discriminate|]. intros H. apply K in H. contradiction.
Qed.
Lemma excludeall_plain args st d : fs_data st = VDict d -> Forall (no_default (fs_defaults st)) args ->
  exists b, g_excludeall args st = Ok (st, b) /\ (b = true <-> ~ Forall (present d) args).
Proof.
  intros Hd Hn. destruct (excludeall_spec args st d Hd) as (b & Hb & H). exists b. split; [exact Hb|].
  assert (K : Forall (fun v => present d v /\ no_default (fs_defaults st) v) args <-> Forall (present d) args).
  { rewrite Forall_forall in Hn. rewrite !Forall_forall. split; intros K v Hv; [now apply K|split; auto]. }
  rewrite K in H. destruct b; [split; [intros _ Hf; apply H in Hf; discriminate|reflexivity]|].
  split; [discriminate|]. intros Hf. exfalso. apply Hf. now apply H.
Qed.

Lemma hashed_key x kk : key_of x = Ok kk -> bool_number x = x.
Proof. now destruct x. Qed.
(** ** value tests *)
Lemma equal_spec k s st d : fs_data st = VDict d ->
  g_equal k (VStr s) st = Ok (st, py_eq (value_or d k VNone) (resolve (e_vars (fs_env st)) s)).
Proof.
  intros Hd. unfold g_equal. cbn [var_or_self bool_number key_of rbind]. rewrite Hd. cbn [get_data rbind].
  fold (value_or d k VNone). unfold resolve.
  destruct (dget (e_vars (fs_env st)) (KS s)); cbn [rbind]; destruct (py_eq _ _); reflexivity.
Qed.
Lemma exclude_val_spec k s st d : fs_data st = VDict d ->
  g_exclude_val k (VStr s) st =
  Ok (st, match dget d (KS k) with Some x => negb (py_eq x (resolve (e_vars (fs_env st)) s)) | None => true end).
Proof.
  intros Hd. unfold g_exclude_val. cbn [var_or_self bool_number key_of rbind]. rewrite Hd. cbn [sub_data rbind]. unfold resolve.
  destruct (dget (e_vars (fs_env st)) (KS s)); cbn [rbind]; (destruct (dget d (KS k)); [|reflexivity]); destruct (py_eq _ _); reflexivity.
Qed.
Lemma contains_val_text k s t st d : fs_data st = VDict d -> dget d (KS k) = Some (VStr t) ->
  forall p, resolve (e_vars (fs_env st)) s = VStr p ->
  exists b, g_contains_val k (VStr s) st = Ok (st, b) /\ (b = true <-> exists u w, t = u ++ p ++ w).
Proof.
  intros Hd Ht p Hp. unfold g_contains_val. cbn [var_or_self bool_number key_of rbind].
  replace (match dget (e_vars (fs_env st)) (KS s) with Some x => x | None => VStr s end) with (VStr p) by (now rewrite <- Hp).
  cbn [rbind]. rewrite Hd. cbn [get_data rbind]. rewrite Ht. cbn [val_in rbind].
  exists (containsb p t). split; [destruct (containsb p t); reflexivity|]. apply containsb_spec.
Qed.
Lemma contains_val_list k s l st d : fs_data st = VDict d -> dget d (KS k) = Some (VList l) ->
  exists b, g_contains_val k (VStr s) st = Ok (st, b) /\
  (b = true <-> exists x, In x l /\ py_eq (resolve (e_vars (fs_env st)) s) x = true).
Proof.
  intros Hd Ht. unfold g_contains_val. cbn [var_or_self bool_number key_of rbind]. unfold resolve.
  destruct (dget (e_vars (fs_env st)) (KS s)) as [y|]; cbn [rbind]; rewrite Hd; cbn [get_data rbind]; rewrite Ht; cbn [val_in rbind].
  - exists (existsb (py_eq y) l). split; [destruct (existsb _ _); reflexivity|]. apply existsb_exists.
  - exists (existsb (py_eq (VStr s)) l). split; [destruct (existsb _ _); reflexivity|]. apply existsb_exists.
Qed.
Lemma contains_val_missing k s st d : fs_data st = VDict d -> dget d (KS k) = None -> 
  forall p, resolve (e_vars (fs_env st)) s = VStr p ->
  g_contains_val k (VStr s) st = Ok (st, match p with [] => true | _ => false end).
Proof.
  intros Hd Ht p Hp. unfold g_contains_val. cbn [var_or_self bool_number key_of rbind].
  replace (match dget (e_vars (fs_env st)) (KS s) with Some x => x | None => VStr s end) with (VStr p) by (now rewrite <- Hp).
  cbn [rbind]. rewrite Hd. cbn [get_data rbind]. rewrite Ht. cbn [val_in rbind]. destruct p; reflexivity.
Qed.

(** ** del *)
Lemma ddel_filter (d : dict) k : dwf d -> ddel d k = filter (fun kv => negb (key_eqb k (fst kv))) d.
Proof.
  induction d as [|[k' v] d IH]; intros Hw; [reflexivity|]. inversion Hw as [|? ? Hn Hw']; subst. simpl.
  destruct (key_eqb_spec k k') as [->|E]; simpl; [|now rewrite IH].
  clear IH Hw. induction d as [|[k2 v2] d IH2]; [reflexivity|]. simpl in *.
  destruct (key_eqb_spec k' k2) as [->|E2]; simpl; [exfalso; apply Hn; now left|]. f_equal. apply IH2; [intros H; apply Hn; now right|].
  now inversion Hw'.
Qed.
Lemma filter_filter {A} (f g : A -> bool) l : filter f (filter g l) = filter (fun x => (f x && g x)%bool) l.
Proof. induction l as [|x l IH]; [reflexivity|]. simpl. destruct (g x) eqn:E; simpl; rewrite ?E, IH; destruct (f x); reflexivity. Qed.
Lemma filter_all {A} (f : A -> bool) l : (forall x, f x = true) -> filter f l = l.
Proof. intros H. induction l as [|x l IH]; [reflexivity|]. simpl. now rewrite H, IH. Qed.
Lemma without_cons d k ks : without d (k :: ks) = without (filter (fun kv => negb (key_eqb (KS k) (fst kv))) d) ks.
Proof.
  unfold without. rewrite filter_filter. apply filter_ext. intros [k' v]. simpl. rewrite negb_orb. apply andb_comm.
Qed.
Lemma del_spec args : forall st d, fs_data st = VDict d -> dwf d ->
  g_del args st = Ok (with_data st (VDict (without d args)), true).
Proof.
  induction args as [|k args IH]; intros st d Hd Hw.
  - cbn [g_del]. unfold without. rewrite filter_all by reflexivity. destruct st; cbn in *. now rewrite Hd.
  - cbn [g_del]. rewrite Hd, py_in_dict. cbn [rbind]. rewrite without_cons, <- (ddel_filter d) by exact Hw.
    destruct (dmem d (KS k)) eqn:Em.
    + rewrite (IH (with_data st (VDict (ddel d (KS k)))) (ddel d (KS k))); [reflexivity|reflexivity|now apply dwf_ddel].
    + rewrite (IH st d Hd Hw). f_equal. f_equal. f_equal. f_equal. apply dmem_false in Em.
      assert (K : ddel d (KS k) = d); [|now rewrite K].
      clear - Em. induction d as [|[k' v] d IHd]; [reflexivity|]. cbn [dget ddel] in *. destruct (key_eqb (KS k) k'); [discriminate|]. now rewrite IHd.
Qed.
Lemma dget_without d ks k : dwf d ->
  dget (without d ks) k = if existsb (fun s => key_eqb (KS s) k) ks then None else dget d k.
Proof.
  intros _. unfold without. induction d as [|[k' v] d IH]; cbn [filter fst dget]; [now destruct (existsb _ _)|].
  destruct (existsb (fun s => key_eqb (KS s) k') ks) eqn:E; cbn [negb dget].
  - rewrite IH. destruct (key_eqb_spec k k') as [->|]; [now rewrite E|reflexivity].
  - destruct (key_eqb_spec k k') as [->|]; [now rewrite E|exact IH].
Qed.

(** ** items2dict *)
Lemma items2dict_spec kn vn st d x v k : fs_data st = VDict d -> kn <> vn ->
  dget d (KS kn) = Some x -> dget d (KS vn) = Some v -> key_of x = Ok k ->
  g_items2dict kn vn st = Ok (with_data st (VDict (dset (ddel (ddel d (KS vn)) (KS kn)) k v)), true).
Proof.
  intros Hd Hne Hk Hv Hx. unfold g_items2dict. rewrite Hd, !py_in_dict. cbn [rbind]. unfold dmem. rewrite Hk, Hv. cbn [negb].
  rewrite dget_ddel_other by congruence. rewrite Hk, (hashed_key _ _ Hx), Hx. reflexivity.
Qed.
Lemma items2dict_missing kn vn st d : fs_data st = VDict d -> (dget d (KS kn) = None \/ dget d (KS vn) = None) ->
  g_items2dict kn vn st = Ok (st, false).
Proof.
  intros Hd H. unfold g_items2dict. rewrite Hd, !py_in_dict. cbn [rbind]. unfold dmem.
  destruct (dget d (KS kn)); [|reflexivity]. cbn [negb]. destruct H as [H|H]; [discriminate|]. rewrite H. reflexivity.
Qed.
Lemma dget_moved (d : dict) kn vn k v : dwf d -> kn <> vn -> forall q,
  dget (dset (ddel (ddel d vn) kn) k v) q =
  if key_eqb q k then Some v else if (key_eqb q kn || key_eqb q vn)%bool then None else dget d q.
Proof.
  intros Hw Hne q. rewrite dget_dset. destruct (key_eqb q k); [reflexivity|].
  destruct (key_eqb_spec q kn) as [->|E1]; simpl.
  - apply dget_ddel_same. now apply dwf_ddel.
  - rewrite dget_ddel_other by congruence. destruct (key_eqb_spec q vn) as [->|E2]; [now apply dget_ddel_same|].
    apply dget_ddel_other; congruence.
Qed.

(** ** to_int *)
Section Conv.
Variable float_of_str : str -> option nat.
Variable int_of_obj : nat -> option Z.
Variable float_of_obj : nat -> option nat.
Notation conv := (int_or_float float_of_str int_of_obj float_of_obj).
Definition conv_value (intlist : bool) (v : val) : val :=
  match conv v with
  | VList l => if intlist then VList (map conv l) else VList l
  | w => w
  end.
Notation tik := (to_int_key float_of_str int_of_obj float_of_obj).

Lemma tik_get il d k q : dget (tik il d k) q = if key_eqb q k then option_map (conv_value il) (dget d k) else dget d q.
Proof.
  unfold to_int_key. destruct (dget d k) as [v|] eqn:E.
  - assert (K : forall w, dget (dset d k w) q = if key_eqb q k then Some w else dget d q) by (intros; apply dget_dset).
    rewrite K. destruct (key_eqb q k); [|reflexivity]. simpl. unfold conv_value. destruct (conv v); try reflexivity; destruct il; reflexivity.
  - destruct (key_eqb_spec q k) as [->|]; [simpl; exact E|reflexivity].
Qed.
Lemma dkeys_dset_mem {V} (d : list (key * V)) k v w : dget d k = Some w -> dkeys (dset d k v) = dkeys d.
Proof. intros H. rewrite dkeys_dset. unfold dmem. now rewrite H. Qed.
Lemma tik_keys il d k : dkeys (tik il d k) = dkeys d.
Proof. unfold to_int_key. destruct (dget d k) eqn:E; [|reflexivity]. now apply dkeys_dset_mem with (w := v). Qed.

Lemma to_int_fold il ks : forall d, NoDup ks ->
  let d' := fold_left (tik il) ks d in
  dkeys d' = dkeys d /\
  forall q, dget d' q = if existsb (key_eqb q) ks then option_map (conv_value il) (dget d q) else dget d q.
Proof.
  induction ks as [|k ks IH]; intros d Hnd; [split; reflexivity|].
  inversion Hnd as [|? ? Hn Hnd']; subst. cbn [fold_left]. destruct (IH (tik il d k) Hnd') as [H1 H2].
  cbv zeta in *. split; [now rewrite H1, tik_keys|]. intros q. rewrite H2, !tik_get. simpl.
  destruct (key_eqb_spec q k) as [->|E]; simpl; [|reflexivity].
  destruct (existsb (key_eqb k) ks) eqn:Ee; [|reflexivity].
  exfalso. apply Hn. apply existsb_exists in Ee as (y & Hy & Ey). apply key_eqb_eq in Ey. now subst.
Qed.

Lemma map_KS_NoDup l : NoDup l -> NoDup (map KS l).
Proof. induction 1; simpl; constructor; auto. rewrite in_map_iff. intros (y & Hy & Hi). congruence. Qed.

Lemma to_int_named keys il st d : fs_data st = VDict d -> keys <> [] -> NoDup keys ->
  exists d', g_to_int float_of_str int_of_obj float_of_obj keys il st = Ok (with_data st (VDict d'), true) /\
  dkeys d' = dkeys d /\
  (forall k, In k keys -> dget d' (KS k) = option_map (conv_value il) (dget d (KS k))) /\
  same_but (map KS keys) d d'.
Proof.
  intros Hd Hne Hnd. unfold g_to_int. rewrite Hd.
  destruct keys as [|k0 ks]; [congruence|]. set (K := map KS (k0 :: ks)).
  destruct (to_int_fold il K d (map_KS_NoDup _ Hnd)) as [H1 H2]. cbv zeta in H2.
  eexists. split; [reflexivity|]. split; [exact H1|]. split.
  - intros k Hk. rewrite H2. replace (existsb (key_eqb (KS k)) K) with true; [reflexivity|].
    symmetry. apply existsb_exists. exists (KS k). split; [now apply in_map|apply key_eqb_refl].
  - intros k Hk. rewrite H2. destruct (existsb (key_eqb k) K) eqn:Ee; [|reflexivity].
    apply existsb_exists in Ee as (y & Hy & Ey). apply key_eqb_eq in Ey. subst y. contradiction.
Qed.
Lemma to_int_all il st d : fs_data st = VDict d -> dwf d ->
  g_to_int float_of_str int_of_obj float_of_obj [] il st =
  Ok (with_data st (VDict (map (fun kv => (fst kv, conv_value il (snd kv))) d)), true).
Proof.
  intros Hd Hw. unfold g_to_int. rewrite Hd. unfold keep. do 4 f_equal.
  assert (G : forall d2 d1, dwf (d1 ++ d2) -> fold_left (tik il) (dkeys d2) (d1 ++ d2)
              = d1 ++ map (fun kv => (fst kv, conv_value il (snd kv))) d2).
  { clear. induction d2 as [|[k v] d2 IH]; intros d1 Hw; [reflexivity|]. cbn [dkeys map fold_left fst snd].
    assert (Hk : ~ In k (dkeys d1)).
    { unfold dwf, dkeys in Hw. rewrite map_app in Hw. simpl in Hw. apply NoDup_remove_2 in Hw. rewrite in_app_iff in Hw. tauto. }
    assert (Hg : dget (d1 ++ (k, v) :: d2) k = Some v).
    { clear - Hk. induction d1 as [|[k' v'] d1 IH]; simpl; [now rewrite key_eqb_refl|]. simpl in Hk.
      destruct (key_eqb_spec k k'); [exfalso; apply Hk; now left|]. apply IH. tauto. }
    assert (Hs : forall w, dset (d1 ++ (k, v) :: d2) k w = (d1 ++ [(k, w)]) ++ d2).
    { intros w. clear - Hk. induction d1 as [|[k' v'] d1 IH]; simpl; [now rewrite key_eqb_refl|]. simpl in Hk.
      destruct (key_eqb_spec k k'); [exfalso; apply Hk; now left|]. f_equal. apply IH. tauto. }
    unfold to_int_key at 2. rewrite Hg, Hs. fold (@dkeys val d2). rewrite IH.
    - rewrite <- app_assoc. cbn [app]. f_equal. f_equal. f_equal. unfold conv_value. destruct (conv v); try reflexivity; destruct il; reflexivity.
    - unfold dwf, dkeys in *. rewrite !map_app in *. simpl in *. rewrite <- app_assoc. exact Hw. }
  apply (G d []). exact Hw.
Qed.
Lemma conv_value_str il s z : py_int s = Some z -> conv_value il (VStr s) = VInt z.
Proof. intros H. unfold conv_value. simpl. now rewrite H. Qed.
Lemma conv_value_other il s : py_int s = None -> float_of_str s = None -> conv_value il (VStr s) = VStr s.
Proof. intros H K. unfold conv_value. simpl. now rewrite H, K. Qed.
End Conv.

(** ** expand *)
Lemma follow_nest_same keys value : forall ref r, keys <> [] -> nest_set keys value (VDict ref) = Ok r ->
  (forall p x, prefix_of p keys -> p <> keys -> follow p (VDict ref) = Some x -> exists d, x = VDict d) ->
  follow keys r = Some value.
Proof.
  induction keys as [|k t IH]; intros ref r Hne H Hp; [congruence|]. clear Hne. cbn [nest_set] in H. destruct t as [|k2 t].
  - injection H as <-. cbn [follow]. now rewrite dget_dset_same.
  - remember (k2 :: t) as tt.
    destruct (dget ref (KS k)) as [x|] eqn:Ex.
    + assert (Hx : exists d, x = VDict d).
      { apply (Hp [k] x); [exists tt; reflexivity|subst tt; discriminate|]. cbn [follow]. now rewrite Ex. }
      destruct Hx as (d & ->). destruct (nest_set tt value (VDict d)) as [sub|e] eqn:Es; [|discriminate].
      injection H as <-. cbn [follow]. rewrite dget_dset_same. apply (IH d sub); [subst; discriminate|exact Es|].
      intros p y Hpre Hpne Hf. apply (Hp (k :: p) y).
      * destruct Hpre as [q ->]. now exists q.
      * congruence.
      * cbn [follow]. now rewrite Ex.
    + destruct (nest_set tt value (VDict [])) as [sub|e] eqn:Es; [|discriminate].
      injection H as <-. cbn [follow]. rewrite dget_dset_same. apply (IH [] sub); [subst; discriminate|exact Es|].
      intros [|a p] y Hpre Hpne Hf; [cbn in Hf; injection Hf as <-; now exists []|]. cbn in Hf. discriminate.
Qed.
Lemma nest_set_ok keys value : forall ref, keys <> [] ->
  (forall p x, prefix_of p keys -> p <> keys -> follow p (VDict ref) = Some x -> exists d, x = VDict d) ->
  exists d, nest_set keys value (VDict ref) = Ok (VDict d).
Proof.
  induction keys as [|k t IH]; intros ref Hne Hp; [congruence|]. clear Hne. cbn [nest_set]. destruct t as [|k2 t].
  - eexists. reflexivity.
  - remember (k2 :: t) as tt.
    destruct (dget ref (KS k)) as [x|] eqn:Ex.
    + assert (Hx : exists d, x = VDict d).
      { apply (Hp [k] x); [exists tt; reflexivity|subst tt; discriminate|]. cbn [follow]. now rewrite Ex. }
      destruct Hx as (d & ->). destruct (IH d) as (d' & ->); [subst; discriminate| |eexists; reflexivity].
      intros p y Hpre Hpne Hf. apply (Hp (k :: p) y); [destruct Hpre as [q ->]; now exists q|congruence|]. cbn [follow]. now rewrite Ex.
    + destruct (IH []) as (d' & ->); [subst; discriminate| |eexists; reflexivity].
      intros [|a p] y Hpre Hpne Hf; [cbn in Hf; injection Hf as <-; now exists []|]. cbn in Hf. discriminate.
Qed.
(** other paths are not touched *)
Lemma follow_nest_other keys value : forall ref r p, keys <> [] -> nest_set keys value ref = Ok r ->
  ~ prefix_of p keys -> ~ prefix_of keys p -> follow p r = follow p ref.
Proof.
  induction keys as [|k t IH]; intros ref r p Hne H H1 H2; [congruence|]. clear Hne. cbn [nest_set] in H. destruct t as [|k2 t].
  - destruct ref as [| | | | |d|]; injection H as <-; try reflexivity.
    destruct p as [|q p]; [exfalso; apply H1; exists [k]; reflexivity|]. cbn [follow].
    assert (k <> q) as Hkq by (intros ->; apply H2; now exists p).
    rewrite dget_dset_other by congruence. reflexivity.
  - remember (k2 :: t) as tt. destruct ref as [| | | | |d|]; try discriminate.
    destruct (nest_set tt value _) as [sub|e] eqn:Es; [|discriminate]. injection H as <-.
    destruct p as [|q p]; [exfalso; apply H1; exists (k :: tt); reflexivity|]. cbn [follow].
    destruct (list_eq_dec Ascii.ascii_dec k q) as [->|Hkq].
    + rewrite dget_dset_same. assert (Hr : follow p sub = follow p (match dget d (KS q) with Some x => x | None => VDict [] end)).
      { apply (IH _ _ p) with (2 := Es); [subst; discriminate| |].
        - intros [u Hu]. apply H1. exists u. now rewrite Hu.
        - intros [u Hu]. apply H2. exists u. now rewrite Hu. }
      rewrite Hr. destruct (dget d (KS q)); [reflexivity|].
      destruct p as [|w p]; [exfalso; apply H1; now exists tt|reflexivity].
    + rewrite dget_dset_other by congruence. reflexivity.
Qed.
(** what can be read after the write was there, or comes from the write *)
Lemma follow_nest_inv keys value : forall ref r p x, keys <> [] -> nest_set keys value ref = Ok r -> follow p r = Some x ->
  prefix_of p keys \/ (exists q, p = keys ++ q /\ follow q value = Some x) \/ follow p ref = Some x.
Proof.
  induction keys as [|k t IH]; intros ref r p x Hne H Hf; [congruence|]. clear Hne. cbn [nest_set] in H. destruct t as [|k2 t].
  - destruct ref as [| | | | |d|]; injection H as <-; try (right; right; exact Hf).
    destruct p as [|q p]; [left; exists [k]; reflexivity|]. cbn [follow] in Hf |- *.
    destruct (list_eq_dec Ascii.ascii_dec k q) as [->|Hkq].
    + rewrite dget_dset_same in Hf. right. left. exists p. split; [reflexivity|exact Hf].
    + rewrite dget_dset_other in Hf by congruence. right. right. exact Hf.
  - remember (k2 :: t) as tt. destruct ref as [| | | | |d|]; try discriminate.
    destruct (nest_set tt value _) as [sub|e] eqn:Es; [|discriminate]. injection H as <-.
    destruct p as [|q p]; [left; exists (k :: tt); reflexivity|]. cbn [follow] in Hf |- *.
    destruct (list_eq_dec Ascii.ascii_dec k q) as [->|Hkq].
    + rewrite dget_dset_same in Hf. destruct (IH _ _ p x ltac:(subst; discriminate) Es Hf) as [[u Hu]|[(u & Hu & Hv)|Hr]].
      * left. exists u. now rewrite Hu.
      * right. left. exists u. split; [now rewrite Hu|exact Hv].
      * destruct (dget d (KS q)) as [y|]; [right; right; exact Hr|].
        destruct p as [|w p]; [left; now exists tt|cbn in Hr; discriminate].
    + rewrite dget_dset_other in Hf by congruence. right. right. exact Hf.
Qed.

Definition dotted_path (k : key) : list str := match k with KS s => split $"." s | _ => [] end.
Lemma split_dot s : split [dot] s = split $"." s. Proof. reflexivity. Qed.

(** the invariant while the keys are processed one after the other *)
Definition expands (done : list (str * val)) (r : val) : Prop :=
  (exists d, r = VDict d) /\
  (forall k v, In (k, v) done -> follow (split $"." k) r = Some v) /\
  (forall p x, follow p r = Some x -> 
     p = [] \/ exists k v, In (k, v) done /\ (prefix_of p (split $"." k) \/ exists q, p = split $"." k ++ q /\ follow q v = Some x)) /\
  (forall p x k v, In (k, v) done -> prefix_of p (split $"." k) -> p <> split $"." k -> follow p r = Some x -> exists d, x = VDict d).

Definition named (e : list (str * val)) : dict := map (fun kv => (KS (fst kv), snd kv)) e.

Lemma prefix_cases {A} (p q r : list A) : prefix_of p r -> prefix_of q r -> prefix_of p q \/ prefix_of q p.
Proof.
  revert q r. induction p as [|x p IH]; intros q r [u Hu] [w Hw].
  - left. exists q. reflexivity.
  - destruct q as [|y q]; [right; exists (x :: p); reflexivity|]. subst r. injection Hw as <- Hw.
    destruct (IH q (p ++ u)) as [[a ->]|[a ->]]; [now exists u|now exists w|left; now exists a|right; now exists a].
Qed.
Lemma prefix_trans {A} (p q r : list A) : prefix_of p q -> prefix_of q r -> prefix_of p r.
Proof. intros [u ->] [w ->]. exists (u ++ w). now rewrite app_assoc. Qed.
Lemma prefix_refl {A} (p : list A) : prefix_of p p. Proof. exists []. now rewrite app_nil_r. Qed.
Lemma follow_app p q v : follow (p ++ q) v = match follow p v with Some w => follow q w | None => None end.
Proof. revert v. induction p as [|k p IH]; intros v; [reflexivity|]. cbn. destruct v; try reflexivity. destruct (dget d (KS k)); [apply IH|reflexivity]. Qed.

Lemma expand_step done r k v :
  expands done r -> Forall (fun kv => ~ conflict (fst kv) k /\ ~ conflict k (fst kv)) done ->
  exists r', expand_one r (KS k, v) = Ok r' /\ expands (done ++ [(k, v)]) r'.
Proof.
  intros ((d & ->) & Hget & Hinv & Hint) Hnc. cbn [expand_one fst snd]. rewrite split_dot.
  assert (Hpre : forall p x, prefix_of p (split $"." k) -> p <> split $"." k -> follow p (VDict d) = Some x -> exists d0, x = VDict d0).
  { intros p x Hp Hpne Hf. destruct (Hinv p x Hf) as [->|(k' & v' & Hi & Hc)].
    - cbn in Hf. injection Hf as <-. now exists d.
    - rewrite Forall_forall in Hnc. destruct (Hnc _ Hi) as [N1 N2]. cbn [fst] in N1, N2. destruct Hc as [Hc|(q & -> & _)].
      + destruct (list_eq_dec (list_eq_dec Ascii.ascii_dec) p (split $"." k')) as [E|E].
        * exfalso. apply N1. unfold conflict. now rewrite <- E.
        * exact (Hint p x k' v' Hi Hc E Hf).
      + exfalso. apply N1. unfold conflict. eapply prefix_trans; [exists q; reflexivity|exact Hp]. }
  destruct (nest_set_ok (split $"." k) v d (split_ne _ _) Hpre) as (d' & Hn). exists (VDict d'). split; [exact Hn|].
  split; [now exists d'|]. split; [|split].
  - intros k1 v1 Hi. apply in_app_or in Hi as [Hi|[Hi|[]]].
    + rewrite (follow_nest_other _ _ _ _ (split $"." k1) (split_ne _ _) Hn); [now apply Hget| |];
        rewrite Forall_forall in Hnc; destruct (Hnc _ Hi); assumption.
    + injection Hi as <- <-. exact (follow_nest_same _ _ _ _ (split_ne _ _) Hn Hpre).
  - intros p x Hf. destruct (follow_nest_inv _ _ _ _ p x (split_ne _ _) Hn Hf) as [Hp|[(q & -> & Hq)|Hold]].
    + right. exists k, v. split; [apply in_or_app; right; now left|now left].
    + right. exists k, v. split; [apply in_or_app; right; now left|right; now exists q].
    + destruct (Hinv p x Hold) as [->|(k' & v' & Hi & Hc)]; [now left|]. right. exists k', v'. split; [apply in_or_app; now left|exact Hc].
  - intros p x k1 v1 Hi Hp Hpne Hf. apply in_app_or in Hi as [Hi|[Hi|[]]].
    + destruct (follow_nest_inv _ _ _ _ p x (split_ne _ _) Hn Hf) as [Hp2|[(q & -> & Hq)|Hold]].
      * (* common prefix *)
        destruct (list_eq_dec (list_eq_dec Ascii.ascii_dec) p (split $"." k)) as [E|E].
        -- exfalso. rewrite Forall_forall in Hnc. destruct (Hnc _ Hi) as [_ N2]. apply N2. unfold conflict. now rewrite <- E.
        -- destruct (follow p (VDict d')) as [y|] eqn:Ef; [|discriminate]. injection Hf as <-.
           destruct Hp2 as [u Hu]. pose proof (follow_nest_same _ _ _ _ (split_ne _ _) Hn Hpre) as Hs.
           rewrite Hu, follow_app, Ef in Hs. destruct u as [|a u]; [rewrite app_nil_r in Hu; congruence|].
           destruct y; try (cbn in Hs; discriminate). now eexists.
      * exfalso. rewrite Forall_forall in Hnc. destruct (Hnc _ Hi) as [_ N2]. apply N2. unfold conflict. cbn [fst].
        eapply prefix_trans; [exists q; reflexivity|exact Hp].
      * exact (Hint p x k1 v1 Hi Hp Hpne Hold).
    + injection Hi as <- <-. destruct (follow p (VDict d')) as [y|] eqn:Ef; [|discriminate]. injection Hf as <-.
      destruct Hp as [u Hu]. pose proof (follow_nest_same _ _ _ _ (split_ne _ _) Hn Hpre) as Hs.
      rewrite Hu, follow_app, Ef in Hs. destruct u as [|a u]; [rewrite app_nil_r in Hu; congruence|].
      destruct y; try (cbn in Hs; discriminate). now eexists.
Qed.

Lemma expand_all e : forall done r, expands done r -> unrelated_keys (map fst e) ->
  Forall (fun kv => Forall (fun kv' => ~ conflict (fst kv) (fst kv') /\ ~ conflict (fst kv') (fst kv)) e) done ->
  exists r', rfold expand_one (named e) r = Ok r' /\ expands (done ++ e) r'.
Proof.
  induction e as [|[k v] e IH]; intros done r Hx Hu Hc.
  - exists r. rewrite app_nil_r. split; [reflexivity|exact Hx].
  - cbn [named map rfold fst snd]. inversion Hu as [|? ? Hk Hu']; subst.
    destruct (expand_step done r k v Hx) as (r1 & E1 & Hx1).
    { rewrite Forall_forall in *. intros kv Hi. specialize (Hc kv Hi). rewrite Forall_forall in Hc. apply (Hc (k, v)). now left. }
    rewrite E1. cbn [rbind]. destruct (IH (done ++ [(k, v)]) r1 Hx1 Hu') as (r2 & E2 & Hx2).
    { apply Forall_app. split.
      - rewrite Forall_forall in *. intros kv Hi. specialize (Hc kv Hi). rewrite Forall_forall in *. intros kv' Hi'. apply Hc. now right.
      - constructor; [|constructor]. rewrite Forall_forall in *. intros kv' Hi'. cbn [fst]. apply Hk. now apply in_map. }
    exists r2. rewrite <- app_assoc in Hx2. split; [exact E2|exact Hx2].
Qed.

Theorem expand_spec e st : fs_data st = VDict (named e) -> unrelated_keys (map fst e) ->
  exists r, g_expand st = Ok (with_data st r, true) /\
  (forall k v, In (k, v) e -> follow (split $"." k) r = Some v) /\
  (forall p x, p <> [] -> follow p r = Some x ->
     exists k v, In (k, v) e /\ (prefix_of p (split $"." k) \/ exists q, p = split $"." k ++ q /\ follow q v = Some x)).
Proof.
  intros Hd Hu. unfold g_expand. rewrite Hd.
  destruct (expand_all e [] (VDict [])) as (r & Er & (_ & H1 & H2 & _)); [|exact Hu|constructor|].
  - split; [now exists []|]. split; [intros k v []|]. split; [|intros p x k v []].
    intros [|a p] x Hf; [now left|]. cbn in Hf. discriminate.
  - rewrite Er. exists r. split; [reflexivity|]. split; [exact H1|]. intros p x Hp Hf. destruct (H2 p x Hf) as [->|H]; [congruence|exact H].
Qed.

(** ** lookup *)
Lemma lookup_in_found table path k add rep upd st d t x kk f :
  fs_data st = VDict d -> walk_get path table = Ok (VDict t) ->
  dget d (KS k) = Some x -> key_of x = Ok kk -> dget t kk = Some f ->
  group_lookup_in table path k add rep upd st =
  Ok (with_data st (VDict
        match add with
        | Some n => dset d (KS n) f
        | None => match upd, f with
                  | true, VDict e => dupdate d e
                  | _, _ => if rep then dset d (KS k) f else d
                  end
        end), true).
Proof.
  intros Hd Hw Hx Hk Hf. unfold group_lookup_in. rewrite Hw. cbn [rbind]. rewrite Hd. cbn [sub_data rbind]. rewrite Hx. cbn [rbind]. rewrite (hashed_key _ _ Hk), Hk. cbn [rbind].
  rewrite Hf. unfold laction_of. destruct add as [n|].
  - unfold set_data. rewrite Hd. reflexivity.
  - unfold set_data, keep. rewrite Hd. assert (st = with_data st (VDict d)) as Hst by (destruct st; cbn in *; now rewrite Hd).
    destruct upd, f, rep; cbn [andb rbind]; try reflexivity; rewrite <- Hst; reflexivity.
Qed.
Lemma lookup_in_missing table path k add rep upd st d t :
  fs_data st = VDict d -> walk_get path table = Ok (VDict t) ->
  (dget d (KS k) = None \/ exists x kk, dget d (KS k) = Some x /\ key_of x = Ok kk /\ dget t kk = None) ->
  group_lookup_in table path k add rep upd st = Ok (st, true).
Proof.
  intros Hd Hw H. unfold group_lookup_in. rewrite Hw. cbn [rbind]. rewrite Hd. cbn [sub_data rbind].
  destruct H as [H|(x & kk & H & Hk & Ht)]; rewrite H; cbn [rbind]; [reflexivity|].
  rewrite (hashed_key _ _ Hk), Hk. cbn [rbind]. now rewrite Ht.
Qed.
(** following a dotted name through dictionaries *)
Lemma walk_follow path : forall v w, follow path v = Some w -> walk_get path v = Ok w.
Proof.
  induction path as [|p path IH]; intros v w H; cbn in *; [congruence|]. destruct v as [| | | | |d|]; try discriminate.
  destruct (dget d (KS p)); [now apply IH|discriminate].
Qed.

(** ** sformat *)
Lemma texts_b d : forallb (fun kv : key * val => match fst kv with KS _ => true | _ => false end) d = true <-> text_keys d.
Proof.
  rewrite forallb_forall. unfold text_keys. rewrite Forall_forall. split; intros H kv K; specialize (H kv K).
  - destruct (fst kv); try discriminate. eauto.
  - destruct H as [n ->]. reflexivity.
Qed.
Lemma text_keys_dset d k v : text_keys d -> text_keys (dset d (KS k) v).
Proof.
  intros H. induction H as [|[j w] d [n Hn] H IH]; cbn [dset]; [repeat constructor; eexists; reflexivity|]. cbn [fst] in Hn. subst j.
  destruct (key_eqb (KS k) (KS n)); constructor; solve [assumption|eexists; reflexivity].
Qed.
Lemma text_keys_dupdate e : forall d, text_keys d -> text_keys e -> text_keys (dupdate d e).
Proof.
  induction e as [|[k v] e IH]; intros d Hd He; [exact Hd|]. inversion He as [|? ? [n Hn] He']; subst. cbn [fst] in Hn. subst k.
  rewrite dupdate_cons. apply IH; [now apply text_keys_dset|exact He'].
Qed.
Lemma sformat_spec fmt s n st d : fs_data st = VDict d -> text_keys d -> text_keys (e_vars (fs_env st)) -> text_keys (e_gvars (fs_env st)) ->
  g_sformat fmt s n st =
  match fmt s d with
  | Ok t => Ok (with_data st (VDict (dset d (KS n) (VStr t))), true)
  | Raise KeyError =>
      match fmt s (dupdate (dupdate (e_gvars (fs_env st)) (e_vars (fs_env st))) d) with
      | Ok t => Ok (with_data st (VDict (dset d (KS n) (VStr t))), true)
      | Raise KeyError => Ok (st, true)
      | Raise e => Raise e
      end
  | Raise e => Raise e
  end.
Proof.
  intros Hd H1 H2 H3. unfold g_sformat. rewrite Hd. unfold fmt_kw. rewrite (proj2 (texts_b _) H1).
  assert (H4 := text_keys_dupdate _ _ (text_keys_dupdate _ _ H3 H2) H1). rewrite (proj2 (texts_b _) H4). reflexivity.
Qed.

(** ** macro *)
Fixpoint macro_chain (macros : list (str * (val -> res gmret))) (names : list str) (v w : val) (ok : bool) : Prop :=
  match names with
  | [] => w = v /\ ok = true
  | n :: t =>
      (~ In n (map fst macros) /\ macro_chain macros t v w ok) \/
      exists m, In (n, m) macros /\
        ((m v = Ok MFalse /\ w = v /\ ok = false) \/
         (m v = Ok MGoOn /\ macro_chain macros t v w ok) \/
         (exists u, m v = Ok (MNew u) /\ macro_chain macros t u w ok))
  end.
Lemma macro_spec macros names : NoDup (map fst macros) -> forall v w ok,
  run_macros macros names v = Ok (w, ok) <-> macro_chain macros names v w ok.
Proof.
  intros Hnd. induction names as [|n t IH]; intros v w ok; cbn [run_macros macro_chain].
  - split; [intros H; injection H as <- <-; auto|intros [-> ->]; reflexivity].
  - destruct (find (fun m => str_eqb n (fst m)) macros) as [[n' m]|] eqn:Ef.
    + apply find_some in Ef as [Hi He]. cbn [fst] in He. apply str_eqb_eq in He. subst n'. cbn [snd].
      assert (Hu : forall m', In (n, m') macros -> m' = m).
      { intros m' Hi'. clear - Hnd Hi Hi'. induction macros as [|[a b] l IHl]; [destruct Hi|]. inversion Hnd as [|? ? Hn Hnd']; subst.
        destruct Hi as [Hi|Hi], Hi' as [Hi'|Hi'].
        - congruence.
        - injection Hi as -> ->. exfalso. apply Hn. change n with (fst (n, m')). now apply in_map.
        - injection Hi' as -> ->. exfalso. apply Hn. change n with (fst (n, m)). now apply in_map.
        - now apply IHl. }
      assert (Hin : In n (map fst macros)) by (change n with (fst (n, m)); now apply in_map).
      split.
      * intros H. right. exists m. split; [exact Hi|]. destruct (m v) as [[| |u]|x]; cbn [rbind] in H; try discriminate.
        -- injection H as <- <-. auto.
        -- right. left. split; [reflexivity|now apply IH].
        -- right. right. exists u. split; [reflexivity|now apply IH].
      * intros [[H _]|(m' & Hm & H)]; [contradiction|]. rewrite (Hu m' Hm) in H.
        destruct H as [(-> & -> & ->)|[(-> & H)|(u & -> & H)]]; cbn [rbind]; [reflexivity| |]; now apply IH.
    + assert (Hin : ~ In n (map fst macros)).
      { intros H. apply in_map_iff in H as ([a b] & Ha & Hb). cbn [fst] in Ha. subst a.
        pose proof (find_none _ _ Ef _ Hb) as Hf. cbn [fst] in Hf. now rewrite str_eqb_refl in Hf. }
      split.
      * intros H. left. split; [exact Hin|now apply IH].
      * intros [[_ H]|(m' & Hm & _)]; [now apply IH|]. exfalso. apply Hin. change n with (fst (n, m')). now apply in_map.
Qed.
