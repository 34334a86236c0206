(** * OutputFacts: proofs about Outputs.v. *)
From Coq Require Import Sorting.Sorted.
From Verif Require Import PyBase DictFacts StrFacts Results Outputs SpecOutput PyEqFacts.
Local Open Scope string_scope.
Local Open Scope list_scope.

(** ** traverse *)
Lemma at_path_snoc p : forall v d i w, at_path p v (VDict d) -> dget d (KS i) = Some w -> at_path (p ++ [i]) v w.
Proof.
  induction p as [|j p IH]; intros v d i w H E; inversion H; subst; cbn.
  - eapply ap_key; [exact E|apply ap_here].
  - eapply ap_key; [eassumption|]. eapply IH; eassumption.
Qed.
Lemma at_path_fun p : forall v w1, at_path p v w1 -> forall w2, at_path p v w2 -> w1 = w2.
Proof.
  induction p as [|i p IH]; intros v w1 H1 w2 H2; inversion H1; inversion H2; subst; auto.
  match goal with H : VDict _ = VDict _ |- _ => injection H as <- end. eapply IH; [eassumption|]. congruence.
Qed.
Lemma walk_empty p : walk false p (VDict []) = Ok (VDict []).
Proof. induction p as [|i p IH]; [reflexivity|]. cbn [walk py_get dget rbind]. exact IH. Qed.
Lemma walk_cases strict p : forall v,
  (exists w, at_path p v w /\ walk strict p v = Ok w) \/
  (ends_early p v /\ walk strict p v = if strict then Raise KeyError else Ok (VDict [])) \/
  (blocked p v /\ walk strict p v = Raise (if strict then TypeError else AttributeError)).
Proof.
  induction p as [|i p IH]; intros v; [left; exists v; split; [apply ap_here|reflexivity]|].
  assert (Hb : (forall d, v <> VDict d) -> walk strict (i :: p) v = Raise (if strict then TypeError else AttributeError) /\ blocked (i :: p) v).
  { intros Hv. split; [|exists [], i, p, v; split; [reflexivity|split; [apply ap_here|exact Hv]]].
    destruct strict; destruct v; try reflexivity; exfalso; eapply Hv; reflexivity. }
  destruct v as [| | | | |d|]; try (right; right; destruct Hb as [B1 B2]; [intros ? ?; discriminate|]; split; [exact B2|exact B1]).
  destruct (dget d (KS i)) as [x|] eqn:E.
  - assert (Ew : walk strict (i :: p) (VDict d) = walk strict p x). { cbn [walk]. destruct strict; cbn [py_item py_get]; rewrite E; reflexivity. }
    rewrite Ew. destruct (IH x) as [(w & H1 & H2)|[[H1 H2]|[H1 H2]]].
    + left. exists w. split; [eapply ap_key; eassumption|exact H2].
    + right. left. split; [|exact H2]. destruct H1 as (q & j & rest & d' & -> & H3 & H4). exists (i :: q), j, rest, d'.
      split; [reflexivity|]. split; [eapply ap_key; eassumption|exact H4].
    + right. right. split; [|exact H2]. destruct H1 as (q & j & rest & d' & -> & H3 & H4). exists (i :: q), j, rest, d'.
      split; [reflexivity|]. split; [eapply ap_key; eassumption|exact H4].
  - right. left. split; [exists [], i, p, d; split; [reflexivity|split; [apply ap_here|exact E]]|].
    cbn [walk]. destruct strict; cbn [py_item py_get]; rewrite E; [reflexivity|]. cbn [rbind]. apply walk_empty.
Qed.
Lemma early_not_found p v w : ends_early p v -> at_path p v w -> False.
Proof.
  intros (q & i & rest & d & -> & H1 & H2) H. revert v H1 H. induction q as [|j q IH]; intros v H1 H.
  - inversion H1; subst. inversion H; subst. congruence.
  - inversion H1; subst. inversion H; subst. eapply IH; [eassumption|]. congruence.
Qed.
Lemma blocked_not_found p v w : blocked p v -> at_path p v w -> False.
Proof.
  intros (q & i & rest & u & -> & H1 & H2) H. revert v H1 H. induction q as [|j q IH]; intros v H1 H.
  - inversion H1; subst. inversion H; subst. eapply H2. reflexivity.
  - inversion H1; subst. inversion H; subst. eapply IH; [eassumption|]. congruence.
Qed.
Lemma blocked_not_early p v : blocked p v -> ends_early p v -> False.
Proof.
  intros (q & i & rest & u & -> & H1 & H2) (q' & i' & rest' & d & E & H3 & H4). revert v q' E H1 H3. induction q as [|j q IH]; intros v q' E H1 H3.
  - inversion H1; subst. destruct q' as [|j' q']; [inversion H3; subst; eapply H2; reflexivity|]. inversion H3; subst. eapply H2; reflexivity.
  - inversion H1; subst. destruct q' as [|j' q'].
    + cbn in E. injection E as <- E. inversion H3; subst. congruence.
    + cbn in E. injection E as <- E. inversion H3; subst. eapply (IH _ q'); [exact E|eassumption|]. congruence.
Qed.
Lemma walk_ok strict p d w : walk strict p (VDict d) = Ok w <-> at_path p (VDict d) w \/ (strict = false /\ ends_early p (VDict d) /\ w = VDict []).
Proof.
  destruct (walk_cases strict p (VDict d)) as [(w' & H1 & H2)|[[H1 H2]|[H1 H2]]]; rewrite H2; split.
  - intros [= <-]. now left.
  - intros [H|(_ & H & _)]; [now rewrite (at_path_fun _ _ _ H1 _ H)|]. exfalso. eapply early_not_found; eassumption.
  - destruct strict; [discriminate|]. intros [= <-]. right. auto.
  - intros [H|(-> & _ & ->)]; [|reflexivity]. exfalso. eapply early_not_found; eassumption.
  - discriminate.
  - intros [H|(_ & H & _)]; exfalso; [eapply blocked_not_found|eapply blocked_not_early]; eassumption.
Qed.
Lemma traverse_list strict p l : traverse strict p (VList l) = do r <- rmap (traverse strict p) l; Ok (VList r).
Proof.
  cbn [traverse]. match goal with |- rbind (?f l) _ = _ => assert (E : f l = rmap (traverse strict p) l) end; [|now rewrite E].
  induction l as [|x l IH]; [reflexivity|]. cbn [rmap]. destruct (traverse strict p x); [|reflexivity]. cbn [rbind]. now rewrite IH.
Qed.
Lemma rmap_ok {A B} (f : A -> res B) l : forall r, rmap f l = Ok r <-> Forall2 (fun x y => f x = Ok y) l r.
Proof.
  induction l as [|x l IH]; intros r; cbn [rmap].
  - split; [intros [= <-]; constructor|intros H; inversion H; reflexivity].
  - destruct (f x) as [y|] eqn:E; cbn [rbind].
    + destruct (rmap f l) as [ys|]; cbn [rbind].
      * split; [intros [= <-]; constructor; [exact E|now apply IH]|]. intros H. inversion H as [|? y' ? ys' E' H']; subst.
        apply IH in H'. injection H' as <-. congruence.
      * split; [discriminate|]. intros H. inversion H as [|? y' ? ys' E' H']; subst. apply IH in H'. discriminate.
    + split; [discriminate|]. intros H. inversion H; subst. congruence.
Qed.
Theorem traverse_selects strict path v : forall w, traverse strict path v = Ok w <-> selects strict path v w.
Proof.
  induction v as [|b|z|s|l IHl|d IHd|o] using val_rect'; intros w;
    try (split; [intros [= <-]; apply se_plain; split; intros ? ?; discriminate|intros H; inversion H; reflexivity]).
  - rewrite traverse_list. split.
    + intros H. destruct (rmap _ l) as [r|] eqn:E; [|discriminate]. cbn [rbind] in H. injection H as <-. apply se_each. apply rmap_ok in E.
      clear - E IHl. induction E as [|x y l r Hx _ IH]; constructor.
      * rewrite Forall_forall in IHl. apply IHl; [now left|exact Hx].
      * apply IH. now inversion IHl.
    + intros H. inversion H as [| |? r Hr|? Hp]; subst; [|exfalso; now apply (proj2 Hp l)].
      assert (rmap (traverse strict path) l = Ok r) as ->; [|reflexivity]. apply rmap_ok. clear - Hr IHl.
      induction Hr as [|x y l r Hx _ IH]; constructor.
      * rewrite Forall_forall in IHl. apply IHl; [now left|exact Hx].
      * apply IH. now inversion IHl.
  - cbn [traverse]. rewrite walk_ok. split.
    + intros [H|(H1 & H2 & ->)]; [now apply se_found|now apply se_early].
    + intros H. inversion H as [? ? H1|? H1 H2| |? Hp]; subst; [now left|right; auto|]. exfalso. now apply (proj1 Hp d).
Qed.
Lemma rmap_raise {A B} (f : A -> res B) l e : rmap f l = Raise e -> exists x, In x l /\ f x = Raise e.
Proof.
  induction l as [|x l IH]; cbn [rmap]; [discriminate|]. destruct (f x) as [y|] eqn:E; cbn [rbind].
  - destruct (rmap f l) as [ys|]; cbn [rbind]; [discriminate|]. intros [= ->]. destruct (IH eq_refl) as (z & Hz & Ez). exists z. split; [now right|exact Ez].
  - intros [= ->]. exists x. split; [now left|exact E].
Qed.
Lemma traverse_error path v : forall e, traverse false path v = Raise e -> e = AttributeError.
Proof.
  induction v as [|b|z|s|l IHl|d IHd|o] using val_rect'; intros e H; try discriminate.
  - rewrite traverse_list in H. destruct (rmap _ l) as [r|e'] eqn:E; [discriminate|]. cbn [rbind] in H. injection H as ->.
    apply rmap_raise in E as (x & Hx & Ex). rewrite Forall_forall in IHl. eapply IHl; eassumption.
  - cbn [traverse] in H. destruct (walk_cases false path (VDict d)) as [(w & _ & E)|[[_ E]|[_ E]]]; rewrite E in H; congruence.
Qed.
Theorem traverse_raises path v : traverse false path v = Raise AttributeError <-> obstructed path v.
Proof.
  induction v as [|b|z|s|l IHl|d IHd|o] using val_rect'; try (split; [discriminate|intros H; inversion H]).
  - rewrite traverse_list. split.
    + intros H. destruct (rmap _ l) as [r|e] eqn:E; [discriminate|]. cbn [rbind] in H. injection H as ->.
      apply rmap_raise in E as (x & Hx & Ex). eapply ob_item; [exact Hx|]. rewrite Forall_forall in IHl. now apply IHl.
    + intros H. inversion H as [|? x Hx Ho]; subst. destruct (rmap (traverse false path) l) as [r|e] eqn:E.
      * exfalso. apply rmap_ok in E. rewrite Forall_forall in IHl. apply (IHl _ Hx) in Ho. clear - E Hx Ho.
        induction E as [|y z l r Hy _ IH]; [destruct Hx|]. destruct Hx as [->|Hx]; [congruence|now apply IH].
      * cbn [rbind]. f_equal. apply rmap_raise in E as (y & Hy & Ey). eapply traverse_error, Ey.
  - cbn [traverse]. destruct (walk_cases false path (VDict d)) as [(w & H & E)|[[H E]|[H E]]]; rewrite E; split; try discriminate.
    + intros K. inversion K; subst. exfalso. eapply blocked_not_found; eassumption.
    + intros K. inversion K; subst. exfalso. eapply blocked_not_early; eassumption.
    + intros _. now apply ob_here.
    + reflexivity.
Qed.

(** ** dict_to_list *)
Lemma dtl_dicts key_name items : forall done acc,
  Forall (fun kv => exists vd, snd kv = VDict vd) items ->
  exists rs, dtl_items key_name items done acc = (VList (acc ++ rs), VDict (done ++ combine (map fst items) rs)) /\ Forall2 (entry_record key_name) items rs.
Proof.
  induction items as [|[k v] items IH]; intros done acc H; cbn [dtl_items].
  - exists []. cbn. rewrite !app_nil_r. split; [reflexivity|constructor].
  - inversion H as [|? ? [vd E] Hr]; subst. cbn [snd] in E. subst v.
    destruct (IH (done ++ [(k, VDict (dset vd (KS key_name) (key_val k)))]) (acc ++ [VDict (dset vd (KS key_name) (key_val k))]) Hr) as (rs & E & F).
    exists (VDict (dset vd (KS key_name) (key_val k)) :: rs). rewrite E, <- !app_assoc. split; [reflexivity|]. constructor; [|exact F].
    exists vd, (dset vd (KS key_name) (key_val k)). cbn [fst snd]. split; [reflexivity|]. split; [reflexivity|].
    split; [rewrite dget_dset_same; now destruct k|]. intros k' Hk. apply dget_dset_other. congruence.
Qed.
Lemma dtl_marked key_name items : forall done acc,
  exists d', snd (dtl_items key_name items done acc) = VDict (done ++ d') /\ marked key_name items d' /\
    fst (dtl_items key_name items done acc) = if forallb (fun kv : key * val => match snd kv with VDict _ => true | _ => false end) items then VList (acc ++ map snd d') else VDict (done ++ d').
Proof.
  induction items as [|[k v] items IH]; intros done acc; cbn [dtl_items].
  - exists []. cbn [snd fst forallb map]. rewrite !app_nil_r. split; [reflexivity|]. split; [constructor|reflexivity].
  - destruct v as [| | | | |vd|].
    6:{ destruct (IH (done ++ [(k, VDict (dset vd (KS key_name) (key_val k)))]) (acc ++ [VDict (dset vd (KS key_name) (key_val k))])) as (d' & E1 & E2 & E3).
      exists ((k, VDict (dset vd (KS key_name) (key_val k))) :: d'). rewrite E1, E3, <- !app_assoc. split; [reflexivity|]. split; [|reflexivity].
      constructor; [|exact E2]. exists vd, (dset vd (KS key_name) (key_val k)). cbn [fst snd]. split; [reflexivity|]. split; [reflexivity|].
      split; [rewrite dget_dset_same; now destruct k|]. intros k' Hk. apply dget_dset_other. congruence. }
    all: eexists; (split; [reflexivity|]); (split; [now constructor|reflexivity]).
Qed.
Lemma dict_to_list_marks key_name : forall v, marks key_name v (snd (dict_to_list key_name v)).
Proof.
  fix IH 1. intros [| | |s|l|d|]; try (apply ms_other; discriminate).
  - cbn [dict_to_list snd]. apply ms_list. induction l as [|x l IHl]; [constructor|]. cbn [map]. constructor; [apply IH|exact IHl].
  - cbn [dict_to_list]. destruct (dtl_marked key_name d [] []) as (d' & E & M & _). rewrite E. now apply ms_dict.
Qed.
Lemma dtl_mixed key_name items : forall done acc,
  ~ Forall (fun kv => exists vd, snd kv = VDict vd) items ->
  exists d, dtl_items key_name items done acc = (VDict d, VDict d) /\ map fst d = map fst (done ++ items).
Proof.
  induction items as [|[k v] items IH]; intros done acc H; cbn [dtl_items]; [exfalso; apply H; constructor|].
  destruct v as [| | | | |vd|]; try (eexists; now split).
  destruct (IH (done ++ [(k, VDict (dset vd (KS key_name) (key_val k)))]) (acc ++ [VDict (dset vd (KS key_name) (key_val k))])) as (d & E & F).
  - intros K. apply H. constructor; [now exists vd|exact K].
  - exists d. split; [exact E|]. rewrite F. rewrite !map_app. cbn [map fst]. now rewrite <- app_assoc.
Qed.
Lemma dicts_dec (items : dict) : {Forall (fun kv : key * val => exists vd, snd kv = VDict vd) items} + {~ Forall (fun kv : key * val => exists vd, snd kv = VDict vd) items}.
Proof.
  apply Forall_dec. intros [k v]. cbn [snd]. destruct v; try (right; intros [vd K]; discriminate). left. now eexists.
Qed.
Theorem dict_to_list_dict key_name d :
  Forall (fun kv => exists vd, snd kv = VDict vd) d ->
  exists rs, fst (dict_to_list key_name (VDict d)) = VList rs /\ Forall2 (entry_record key_name) d rs.
Proof.
  intros H. cbn [dict_to_list]. destruct (dtl_dicts key_name d [] [] H) as (rs & E & F). exists rs. rewrite E. now split.
Qed.
Theorem dict_to_list_each key_name l : fst (dict_to_list key_name (VList l)) = VList (map (fun x => fst (dict_to_list key_name x)) l).
Proof. cbn [dict_to_list fst]. now rewrite map_map. Qed.

(** ** table *)
Lemma dget_append (a b : dict) k : dget (a ++ b) k = match dget a k with Some v => Some v | None => dget b k end.
Proof. induction a as [|[k' v] a IH]; [reflexivity|]. cbn [app dget]. destruct (key_eqb k k'); [reflexivity|exact IH]. Qed.
Lemma key_index_first k hs : match key_index k hs with
  | Some i => nth_error hs i = Some k /\ forall j, j < i -> nth_error hs j <> Some k
  | None => ~ In k hs end.
Proof.
  induction hs as [|h hs IH]; cbn [key_index]; [intros []|]. destruct (key_eqb k h) eqn:E.
  - apply key_eqb_eq in E as ->. split; [reflexivity|]. intros j Hj. lia.
  - assert (k <> h) by (intros ->; now rewrite key_eqb_refl in E). destruct (key_index k hs) as [i|]; cbn [option_map].
    + destruct IH as [H1 H2]. split; [exact H1|]. intros [|j] Hj; cbn; [congruence|]. apply H2. lia.
    + intros [K|K]; [congruence|contradiction].
Qed.
Lemma set_nth_length {A} n (x : A) l : length (set_nth n x l) = length l.
Proof. revert n. induction l as [|y l IH]; intros [|n]; cbn; auto. Qed.
Lemma set_nth_same {A} n (x : A) l : n < length l -> nth_error (set_nth n x l) n = Some x.
Proof. revert n. induction l as [|y l IH]; intros [|n] H; cbn in *; [lia|lia|reflexivity|]. apply IH. lia. Qed.
Lemma set_nth_other {A} n m (x : A) l : n <> m -> nth_error (set_nth n x l) m = nth_error l m.
Proof. revert n m. induction l as [|y l IH]; intros [|n] [|m] H; cbn; try congruence; auto. Qed.
Lemma first_unique (hs : list key) h i j : nth_error hs i = Some h -> (forall j, j < i -> nth_error hs j <> Some h) ->
  nth_error hs j = Some h -> (forall i, i < j -> nth_error hs i <> Some h) -> i = j.
Proof.
  intros H1 H2 H3 H4. destruct (Nat.lt_trichotomy i j) as [K|[K|K]]; [|exact K|]; exfalso; [eapply H4|eapply H2]; eassumption.
Qed.
Lemma fill_row_row missing hs d : dwf d -> row_of missing hs d (fold_left (fill_row hs) d (map (fun _ => missing) hs)).
Proof.
  (* along the fold: the row answers for the entries done so far *)
  assert (K : forall (d e : dict) row, dwf (e ++ d) -> row_of missing hs e row -> row_of missing hs (e ++ d) (fold_left (fill_row hs) d row)).
  { induction d0 as [|[k v] d0 IH]; intros e row Hw Hr; cbn [fold_left]; [now rewrite app_nil_r|].
    replace (e ++ (k, v) :: d0) with ((e ++ [(k, v)]) ++ d0) in * by (now rewrite <- app_assoc). apply IH; [exact Hw|].
    assert (Hn : dget e k = None).
    { apply dget_None_notin. unfold dwf, dkeys in Hw. rewrite !map_app in Hw. cbn [map fst] in Hw. rewrite <- app_assoc in Hw. cbn [app] in Hw.
      apply NoDup_remove_2 in Hw. intros K. apply Hw. apply in_or_app. now left. }
    destruct Hr as (Hl & Hr & Hd). unfold fill_row. cbn [fst snd]. pose proof (key_index_first k hs) as Ki. destruct (key_index k hs) as [i0|].
    - destruct Ki as [K1 K2]. split; [now rewrite set_nth_length|]. split.
      2:{ intros i j h Hj Hi Hj'. rewrite set_nth_other; [now apply (Hd i j h)|]. intros <-. rewrite K1 in Hi. injection Hi as <-. now apply (K2 j). }
      intros i h Hi Hf. rewrite dget_append.
      destruct (key_eqb h k) eqn:E.
      + apply key_eqb_eq in E as ->. assert (i = i0) as -> by (eapply first_unique; eassumption). rewrite set_nth_same.
        * rewrite Hn. cbn [dget]. now rewrite key_eqb_refl.
        * rewrite Hl. apply nth_error_Some. congruence.
      + assert (i0 <> i) by (intros ->; rewrite K1 in Hi; injection Hi as ->; now rewrite key_eqb_refl in E).
        rewrite set_nth_other by assumption. rewrite (Hr i h Hi Hf). cbn [dget]. rewrite E. now destruct (dget e h).
    - split; [exact Hl|]. split; [|exact Hd]. intros i h Hi Hf. rewrite (Hr i h Hi Hf), dget_append. cbn [dget].
      destruct (key_eqb h k) eqn:E; [|now destruct (dget e h)]. apply key_eqb_eq in E as ->. exfalso. apply Ki. eapply nth_error_In, Hi. }
  intros Hw. apply (K d [] (map (fun _ => missing) hs) Hw). split; [apply map_length|]. split.
  - intros i h Hi _. cbn [dget]. rewrite nth_error_map, Hi. reflexivity.
  - intros i j h _ Hi _. rewrite nth_error_map, Hi. reflexivity.
Qed.

(** headers *)
Lemma str_leb_before a : forall b, str_leb b a = false <-> before a b.
Proof.
  induction a as [|x a IH]; intros [|y b]; cbn [str_leb].
  - split; [discriminate|intros H; inversion H].
  - split; [intros _; constructor|reflexivity].
  - split; [discriminate|intros H; inversion H].
  - destruct (N.ltb_spec (code y) (code x)) as [H|H]; [|destruct (N.ltb_spec (code x) (code y)) as [H'|H']].
    + split; [discriminate|]. intros K. inversion K; subst; lia.
    + split; [intros _; now apply bf_head|reflexivity].
    + assert (E : x = y). { unfold code in *. rewrite <- (ascii_N_embedding x), <- (ascii_N_embedding y). f_equal. lia. } subst y.
      rewrite IH. split; [apply bf_tail|]. intros K. inversion K; subst; [lia|assumption].
Qed.
Lemma before_trans a b c : before a b -> before b c -> before a c.
Proof.
  intros H. revert c. induction H as [y s|x y s t H|x s t H IH]; intros c Hc; inversion Hc; subst; try (now constructor).
  - apply bf_head. lia.
  - apply bf_tail. now apply IH.
Qed.
Lemma before_total a : forall b, before a b \/ a = b \/ before b a.
Proof.
  induction a as [|x a IH]; intros [|y b]; [auto|left; constructor|right; right; constructor|].
  destruct (N.lt_trichotomy (code x) (code y)) as [H|[H|H]]; [left; now constructor| |right; right; now constructor].
  assert (x = y) as -> by (unfold code in *; rewrite <- (ascii_N_embedding x), <- (ascii_N_embedding y); f_equal; exact H).
  destruct (IH b) as [K|[->|K]]; [left; now constructor|auto|right; right; now constructor].
Qed.
Lemma key_before_trans a b c : key_before a b -> key_before b c -> key_before a c.
Proof. intros H K. destruct H; inversion K; subst; constructor; [eapply before_trans; eassumption|lia]. Qed.
Lemma key_lt_before a b : key_lt a b = Ok true <-> key_before a b.
Proof.
  destruct a, b; cbn [key_lt]; try (split; [discriminate|intros H; inversion H]).
  - split; [intros [= H]; constructor; apply str_leb_before; now apply Bool.negb_true_iff|].
    intros H. inversion H as [? ? K|]; subst. apply str_leb_before in K. now rewrite K.
  - split; [intros [= H]; constructor; now apply Z.ltb_lt|]. intros H. inversion H as [|? ? K]; subst. apply Z.ltb_lt in K. now rewrite K.
Qed.
Lemma key_lt_false a b : key_lt a b = Ok false -> a = b \/ key_before b a.
Proof.
  destruct a, b; cbn [key_lt]; try discriminate; intros [= H].
  - apply Bool.negb_false_iff in H. destruct (before_total s s0) as [K|[->|K]]; [|now left|right; now constructor].
    apply str_leb_before in K. congruence.
  - apply Z.ltb_ge in H. destruct (Z.eq_dec z z0) as [->|]; [now left|]. right. constructor. lia.
Qed.
Lemma insert_key_ok k l : forall l', StronglySorted key_before l -> ~ In k l -> insert_key k l = Ok l' ->
  StronglySorted key_before l' /\ forall x, In x l' <-> x = k \/ In x l.
Proof.
  induction l as [|y l IH]; intros l' Hs Hn H; cbn [insert_key] in H.
  - injection H as <-. split; [repeat constructor|]. intros x. cbn. intuition congruence.
  - destruct (key_lt k y) as [[|]|] eqn:E; [| |discriminate]; cbn [rbind] in H.
    + injection H as <-. apply key_lt_before in E. split; [|intros x; cbn; intuition congruence].
      constructor; [exact Hs|]. constructor; [exact E|]. inversion Hs as [|? ? _ Hf]; subst. eapply Forall_impl; [|exact Hf]. intros z. now apply key_before_trans.
    + apply key_lt_false in E as [->|E]; [exfalso; apply Hn; now left|].
      destruct (insert_key k l) as [t'|] eqn:Et; [|discriminate]. cbn [rbind] in H. injection H as <-.
      inversion Hs as [|? ? Hs' Hf]; subst. destruct (IH t' Hs' (fun K => Hn (or_intror K)) eq_refl) as [H1 H2].
      split.
      * constructor; [exact H1|]. apply Forall_forall. intros x Hx. apply H2 in Hx as [->|Hx]; [exact E|]. rewrite Forall_forall in Hf. now apply Hf.
      * intros x. cbn. rewrite H2. tauto.
Qed.
Lemma sort_keys_ok l : forall acc l', NoDup l -> (forall x, In x acc -> ~ In x l) -> StronglySorted key_before acc ->
  rfold (fun acc k => insert_key k acc) l acc = Ok l' ->
  StronglySorted key_before l' /\ forall x, In x l' <-> In x acc \/ In x l.
Proof.
  induction l as [|k l IH]; intros acc l' Hn Hd Hs H; cbn [rfold] in H.
  - injection H as <-. split; [exact Hs|]. cbn. intuition.
  - destruct (insert_key k acc) as [a'|] eqn:E; [|discriminate]. cbn [rbind] in H. inversion Hn as [|? ? Hk Hn']; subst.
    destruct (insert_key_ok k acc a' Hs) as [H1 H2]; [intros K; apply (Hd _ K); now left|exact E|].
    destruct (IH a' l') as [K1 K2]; [exact Hn'| |exact H1|exact H|].
    + intros x Hx Hi. apply H2 in Hx as [->|Hx]; [contradiction|]. apply (Hd _ Hx). now right.
    + split; [exact K1|]. intros x. rewrite K2, H2. cbn. intuition.
Qed.
Lemma insert_strs k l : Forall (fun x => exists s, x = KS s) l -> exists l', insert_key (KS k) l = Ok l' /\ Forall (fun x => exists s, x = KS s) l'.
Proof.
  intros H. induction H as [|x l [s ->] Hl IH]; cbn [insert_key key_lt].
  - exists [KS k]. split; [reflexivity|]. repeat constructor. now exists k.
  - cbn [rbind]. destruct (negb _).
    + exists (KS k :: KS s :: l). split; [reflexivity|]. repeat (constructor; [now eexists|]). exact Hl.
    + destruct IH as (l' & -> & Hl'). exists (KS s :: l'). split; [reflexivity|]. constructor; [now exists s|exact Hl'].
Qed.
Lemma sort_strs l : forall acc, Forall (fun x => exists s, x = KS s) acc -> Forall (fun x => exists s, x = KS s) l ->
  exists l', rfold (fun acc k => insert_key k acc) l acc = Ok l'.
Proof.
  induction l as [|k l IH]; intros acc Ha Hl; cbn [rfold]; [now eexists|]. inversion Hl as [|? ? [s ->] Hl']; subst.
  destruct (insert_strs s acc Ha) as (a' & -> & Ha'). cbn [rbind]. now apply IH.
Qed.
Lemma add_keys_ok ks : forall acc, NoDup acc -> NoDup (add_keys acc ks) /\ forall x, In x (add_keys acc ks) <-> In x acc \/ In x ks.
Proof.
  induction ks as [|k ks IH]; intros acc Hn; [split; [exact Hn|cbn; intuition]|].
  change (add_keys acc (k :: ks)) with (add_keys (if existsb (key_eqb k) acc then acc else acc ++ [k]) ks).
  assert (He : existsb (key_eqb k) acc = true <-> In k acc).
  { rewrite existsb_exists. split; [intros (x & Hx & E); apply key_eqb_eq in E as ->; exact Hx|intros H; exists k; split; [exact H|apply key_eqb_refl]]. }
  destruct (existsb (key_eqb k) acc).
  - destruct (IH acc Hn) as [H1 H2]. split; [exact H1|]. intros x. rewrite H2. cbn. destruct He as [He _]. specialize (He eq_refl). intuition congruence.
  - assert (Hk : ~ In k acc) by (intros K; apply He in K; discriminate).
    destruct (IH (acc ++ [k])) as [H1 H2].
    { apply NoDup_rev in Hn. rewrite <- (rev_involutive acc). apply NoDup_rev in Hn. rewrite rev_involutive in *. clear - Hn Hk.
      induction acc as [|x acc IH]; cbn; [repeat constructor; intros []|]. inversion Hn; subst. constructor.
      - intros K. apply in_app_or in K as [K|[<-|[]]]; [contradiction|]. apply Hk. now left.
      - apply IH; [assumption|]. intros K. apply Hk. now right. }
    split; [exact H1|]. intros x. rewrite H2, in_app_iff. cbn. intuition.
Qed.
Lemma all_keys_ok items : forall acc ks, NoDup acc ->
  rfold (fun acc it => match it with VDict d => Ok (add_keys acc (map fst d)) | _ => Raise AttributeError end) items acc = Ok ks ->
  NoDup ks /\ forall k, In k ks <-> In k acc \/ exists d, In (VDict d) items /\ In k (dkeys d).
Proof.
  induction items as [|it items IH]; intros acc ks Hn H; cbn [rfold] in H.
  - injection H as <-. split; [exact Hn|]. intros k. split; [now left|]. intros [K|(d & [] & _)]. exact K.
  - destruct it as [| | | | |d|]; try discriminate. cbn [rbind] in H. destruct (add_keys_ok (map fst d) acc Hn) as [H1 H2].
    destruct (IH _ _ H1 H) as [K1 K2]. split; [exact K1|]. intros k. rewrite K2, H2. split.
    + intros [[K|K]|(d' & K & K')]; [now left|right; exists d; split; [now left|exact K]|right; exists d'; split; [now right|exact K']].
    + intros [K|(d' & [E|K] & K')]; [auto|injection E as ->; auto|right; now exists d'].
Qed.
Theorem headers_ok items hs : table_headers [] items = Ok hs ->
  StronglySorted key_before hs /\ forall k, In k hs <-> exists d, In (VDict d) items /\ In k (dkeys d).
Proof.
  cbn [table_headers]. intros H. destruct (all_keys items) as [ks|] eqn:E; [|discriminate]. cbn [rbind] in H.
  apply all_keys_ok in E as [E1 E2]; [|constructor]. apply sort_keys_ok in H as [H1 H2]; [|exact E1|intros x []|constructor].
  split; [exact H1|]. intros k. rewrite H2, E2. cbn. intuition.
Qed.
Lemma all_keys_strs items : forall acc, Forall (fun x => exists s, x = KS s) acc ->
  Forall (fun it => exists d, it = VDict d /\ Forall (fun kv : key * val => exists s, fst kv = KS s) d) items ->
  exists ks, rfold (fun acc it => match it with VDict d => Ok (add_keys acc (map fst d)) | _ => Raise AttributeError end) items acc = Ok ks /\ Forall (fun x => exists s, x = KS s) ks.
Proof.
  induction items as [|it items IH]; intros acc Ha H; cbn [rfold]; [now exists acc|]. inversion H as [|? ? (d & -> & Hd) Hr]; subst. cbn [rbind]. apply IH; [|exact Hr].
  clear - Ha Hd. revert acc Ha. induction Hd as [|kv d [s E] _ IH]; intros acc Ha; [exact Ha|]. cbn [map]. rewrite E.
  change (add_keys acc (KS s :: map fst d)) with (add_keys (if existsb (key_eqb (KS s)) acc then acc else acc ++ [KS s]) (map fst d)). apply IH.
  destruct (existsb _ acc); [exact Ha|]. apply Forall_app. split; [exact Ha|]. repeat constructor. now exists s.
Qed.

(** selected records *)
Lemma table_items_records path key_name strict datum items : table_items path key_name strict datum = Ok items ->
  Forall (fun it => exists d, it = VDict d) items ->
  exists sel, selects strict path datum sel /\ records_of key_name sel items.
Proof.
  unfold table_items. intros H Hd. destruct (traverse strict path datum) as [sel|] eqn:E; [|discriminate]. cbn [rbind] in H. apply traverse_selects in E.
  exists sel. split; [exact E|]. destruct (truthy sel) eqn:Et; cbn [negb] in H.
  - destruct sel as [| | | |l|d|]; try (injection H as <-; apply ro_plain; split; intros ? ?; discriminate).
    + injection H as <-. apply ro_list.
    + assert (Hne : d <> []) by (intros ->; discriminate). destruct key_name as [|c kn].
      * injection H as <-. now apply ro_dict.
      * destruct (dicts_dec d) as [Hdd|Hdd].
        -- destruct (dict_to_list_dict (c :: kn) d Hdd) as (rs & E1 & E2). rewrite E1 in H. injection H as <-. apply ro_entries; [exact Hne|discriminate|exact E2].
        -- exfalso. cbn [dict_to_list] in H. destruct (dtl_mixed (c :: kn) d [] [] Hdd) as (d' & E1 & E2). rewrite E1 in H. cbn [fst] in H. injection H as <-.
           destruct d' as [|[k v] d']; [destruct d; [congruence|discriminate]|]. inversion Hd as [|? ? [x K] _]; subst. cbn in K. destruct k; discriminate.
  - injection H as <-. destruct sel as [| | | |l|d|]; try (apply ro_plain; split; intros ? ?; discriminate).
    + destruct l; [apply ro_list|discriminate].
    + destruct d; [apply ro_empty|discriminate].
Qed.
Lemma concat_res_ok {A} (l : list (res (list A))) : forall r, concat_res l = Ok r -> exists ls, Forall2 (fun x y => x = Ok y) l ls /\ r = concat ls.
Proof.
  induction l as [|x l IH]; intros r H; cbn [concat_res] in H; [injection H as <-; exists []; now split|].
  destruct x as [a|]; [|discriminate]. cbn [rbind] in H. destruct (concat_res l) as [b|]; [|discriminate]. cbn [rbind] in H. injection H as <-.
  destruct (IH b eq_refl) as (ls & H1 & ->). exists (a :: ls). split; [now constructor|reflexivity].
Qed.
Theorem table_ok path missing key_name strict headers data hs rows :
  table path missing key_name strict headers data = Ok (hs, rows) ->
  exists recss, Forall2 (fun datum recs => exists sel, selects strict path datum sel /\ records_of key_name sel recs) (table_source data) recss /\
    Forall2 (fun it row => exists d, it = VDict d /\ (dwf d -> row_of missing hs d row)) (concat recss) rows /\
    (headers <> [] -> hs = headers) /\
    (headers = [] -> StronglySorted key_before hs /\ forall k, In k hs <-> exists d, In (VDict d) (concat recss) /\ In k (dkeys d)).
Proof.
  unfold table. intros H. destruct (table_data path key_name strict data) as [items|] eqn:Ed; [|discriminate]. cbn [rbind] in H.
  destruct (table_headers headers items) as [hs'|] eqn:Eh; [|discriminate]. cbn [rbind] in H.
  destruct (rmap (table_row missing hs') items) as [rows'|] eqn:Er; [|discriminate]. cbn [rbind] in H. injection H as <- <-.
  apply rmap_ok in Er. unfold table_data in Ed. apply concat_res_ok in Ed as (ls & E1 & ->). exists ls.
  assert (Hdict : Forall (fun it => exists d, it = VDict d) (concat ls)).
  { clear - Er. induction Er as [|it row l r H _ IH]; constructor; [|exact IH]. destruct it; try discriminate. now eexists. }
  split; [|split; [|split]].
  - clear - E1 Hdict. remember (map (table_items path key_name strict) (table_source data)) as l eqn:El. revert El. generalize (table_source data).
    induction E1 as [|x y l ls Hx _ IH]; intros src El; destruct src as [|s src]; try discriminate; [constructor|]. cbn in El. injection El as -> ->. cbn [concat] in Hdict.
    apply Forall_app in Hdict as [D1 D2]. constructor; [|now apply IH]. now apply table_items_records.
  - clear - Er. induction Er as [|it row l r H _ IH]; constructor; [|exact IH]. destruct it as [| | | | |d|]; try discriminate. exists d. split; [reflexivity|].
    intros Hw. cbn [table_row] in H. injection H as <-. now apply fill_row_row.
  - intros Hh. unfold table_headers in Eh. destruct headers; [congruence|]. now injection Eh as <-.
  - intros ->. now apply headers_ok.
Qed.
(** when every selected record is a dictionary with string keys there is a table *)
Lemma str_record_forall d : (forall k, In k (dkeys d) -> exists s, k = KS s) -> Forall (fun kv : key * val => exists s, fst kv = KS s) d.
Proof. intros H. apply Forall_forall. intros kv Hkv. apply H. now apply in_map. Qed.
Lemma entry_str key_name kv r r' : entry_record key_name kv r -> entry_record key_name kv r' -> str_record r -> str_record r'.
Proof.
  intros (vd & rd & E1 & -> & _ & H) (vd' & rd' & E1' & -> & _ & H') (d & E & Hs). injection E as <-. rewrite E1 in E1'. injection E1' as <-.
  exists rd'. split; [reflexivity|]. intros k Hk. destruct (key_dec k (KS key_name)) as [->|Hne]; [now eexists|]. apply Hs.
  destruct (in_dec key_dec k (dkeys rd)) as [Hin|Hin]; [exact Hin|]. exfalso. apply dget_None_notin in Hin. rewrite H in Hin by exact Hne.
  rewrite <- H' in Hin by exact Hne. now apply dget_None_notin in Hin.
Qed.
Lemma records_items key_name strict path datum sel recs : selects strict path datum sel -> records_of key_name sel recs -> Forall str_record recs ->
  exists items, table_items path key_name strict datum = Ok items /\ Forall str_record items /\ length items = length recs.
Proof.
  intros Hs Hr Hd. apply traverse_selects in Hs. unfold table_items. rewrite Hs. cbn [rbind]. destruct Hr as [l| |d Hne Hk|d rs Hne Hk Hf|v Hp].
  - exists l. split; [|now split]. destruct (truthy (VList l)) eqn:E; cbn [negb]; [reflexivity|]. destruct l; [reflexivity|discriminate].
  - exists []. split; [reflexivity|now split].
  - exists [VDict d]. destruct d; [congruence|]. subst key_name. split; [reflexivity|now split].
  - assert (Hdd : Forall (fun kv : key * val => exists vd, snd kv = VDict vd) d).
    { clear - Hf. induction Hf as [|kv r d rs (vd & rd & E & _) _ IH]; constructor; [now exists vd|exact IH]. }
    destruct (dict_to_list_dict key_name d Hdd) as (rs' & E1 & E2). exists rs'. destruct d as [|kv d]; [congruence|]. cbn [truthy negb]. destruct key_name; [congruence|].
    rewrite E1. split; [reflexivity|]. clear - Hf E2 Hd. revert rs Hf Hd. induction E2 as [|kv' r' l rs' H _ IH]; intros rs Hf Hd; inversion Hf as [|? y ? ys H2 H4]; subst; [now split|].
    inversion Hd as [|? ? H5 H6]; subst. destruct (IH _ H4 H6) as [I1 I2]. split; [constructor; [|exact I1]|cbn; now rewrite I2]. now apply (entry_str _ _ _ _ H2 H).
  - destruct Hp as [P1 P2]. exists []. split; [|now split]. destruct (truthy v); [|reflexivity]. cbn [negb]. destruct v; try reflexivity; [now destruct (P2 l)|now destruct (P1 d)].
Qed.
Theorem table_total path missing key_name strict headers data recss :
  Forall2 (fun datum recs => exists sel, selects strict path datum sel /\ records_of key_name sel recs) (table_source data) recss ->
  Forall str_record (concat recss) ->
  exists hs rows, table path missing key_name strict headers data = Ok (hs, rows) /\ length rows = length (concat recss).
Proof.
  intros H Hd. unfold table.
  assert (exists items, table_data path key_name strict data = Ok items /\ Forall str_record items /\ length items = length (concat recss)) as (items & Ei & Hi & Hl).
  { unfold table_data. induction H as [|datum recs src recss (sel & Hs & Hr) _ IH]; [exists []; now repeat split|]. cbn [concat] in Hd. apply Forall_app in Hd as [D1 D2].
    destruct (records_items _ _ _ _ _ _ Hs Hr D1) as (i1 & E1 & S1 & L1). destruct (IH D2) as (i2 & E2 & S2 & L2). exists (i1 ++ i2). cbn [map concat_res concat].
    rewrite E1. cbn [rbind]. rewrite E2. cbn [rbind]. split; [reflexivity|]. split; [now apply Forall_app|]. rewrite !app_length. congruence. }
  rewrite Ei. cbn [rbind].
  assert (H' : Forall (fun it => exists d, it = VDict d /\ Forall (fun kv : key * val => exists s, fst kv = KS s) d) items).
  { eapply Forall_impl; [|exact Hi]. intros it (d & -> & K). exists d. split; [reflexivity|]. now apply str_record_forall. }
  assert (exists hs, table_headers headers items = Ok hs) as [hs Eh].
  { unfold table_headers. destruct headers; [|now eexists]. destruct (all_keys_strs _ [] (Forall_nil _) H') as (ks & Ek & Hk). unfold all_keys. rewrite Ek. cbn [rbind].
    apply sort_strs; [constructor|exact Hk]. }
  rewrite Eh. cbn [rbind]. assert (exists rows, rmap (table_row missing hs) items = Ok rows) as [rows Er].
  { clear - H'. induction H' as [|it l (d & -> & _) _ [rows IH]]; [now exists []|]. eexists. cbn [rmap table_row rbind]. rewrite IH. reflexivity. }
  exists hs, rows. rewrite Er. split; [reflexivity|]. rewrite <- Hl. apply rmap_ok in Er. clear - Er. induction Er; [reflexivity|]. cbn. congruence.
Qed.

(** ** the outputter *)
Section RunFacts.
Context {F : Type} (runf : F -> val -> val -> res (val * val)) (format : option (val -> res val)) (is_self : str -> bool)
  {Eff : Type} (returner : str -> option (val -> Eff)).
Lemma run_functions_turn fs : forall r d y, run_functions F runf fs r d = Ok y <-> in_turn runf fs (r, d) y.
Proof.
  induction fs as [|f fs IH]; intros r d y; cbn [run_functions].
  - split; [intros H; injection H as <-; constructor|intros H; now inversion H].
  - split.
    + destruct (runf f r d) as [[r' d']|] eqn:E; cbn [rbind]; [|discriminate]. intros H. econstructor; [exact E|now apply IH].
    + intros H. inversion H as [|? ? ? ? [r' d'] ? E1 E2]; subst. rewrite E1. cbn [rbind]. now apply IH.
Qed.
Lemma run_returners_eq rs v : forall flag, run_returners is_self Eff returner rs v flag =
  (flat_map (fun r => if is_self r then [] else match returner r with Some e => [e v] | None => [] end) rs,
   (flag || existsb is_self rs)%bool).
Proof.
  induction rs as [|r rs IH]; intros flag; cbn [run_returners flat_map existsb]; [now rewrite orb_false_r|].
  destruct (is_self r) eqn:E.
  - rewrite IH. cbn [app]. now rewrite !orb_true_l, orb_true_r.
  - rewrite IH. rewrite orb_false_l. now destruct (returner r).
Qed.
Theorem output_runs condition vars fs rs flag data x es fl :
  cond_holds condition vars = Ok true ->
  (output_run F runf format is_self Eff returner condition vars fs rs flag data = Ok (x, es, fl) <->
   exists results data' formatted, in_turn runf fs (data, data) (results, data') /\
     (match format with Some f => f results = Ok formatted | None => formatted = results end) /\
     es = flat_map (fun r => if is_self r then [] else match returner r with Some e => [e formatted] | None => [] end) rs /\
     fl = (flag || existsb is_self rs)%bool /\ x = (if fl then formatted else data')).
Proof.
  intros Hc. unfold output_run. rewrite Hc. cbn [rbind negb]. split.
  - destruct (run_functions F runf fs data data) as [[results data']|] eqn:E; cbn [rbind]; [|discriminate]. apply run_functions_turn in E.
    intros H. exists results, data'. assert (exists formatted, (match format with Some f => f results | None => Ok results end) = Ok formatted) as [formatted Ef].
    { destruct (match format with Some f => f results | None => Ok results end) eqn:Ef; [now eexists|discriminate]. }
    rewrite Ef in H. cbn [rbind] in H. rewrite run_returners_eq in H. injection H as <- <- <-. exists formatted. split; [exact E|]. split; [destruct format; congruence|now split].
  - intros (results & data' & formatted & E & Ef & -> & -> & ->). apply run_functions_turn in E. rewrite E. cbn [rbind].
    assert ((match format with Some f => f results | None => Ok results end) = Ok formatted) as -> by (destruct format; congruence). cbn [rbind].
    rewrite run_returners_eq. reflexivity.
Qed.
Theorem output_skipped condition vars fs rs flag data :
  cond_holds condition vars = Ok false -> output_run F runf format is_self Eff returner condition vars fs rs flag data = Ok (data, [], flag).
Proof. intros Hc. unfold output_run. now rewrite Hc. Qed.
Lemma in_turn_data fs : (forall f r d r' d', In f fs -> runf f r d = Ok (r', d') -> d' = d) -> forall x y, in_turn runf fs x y -> snd y = snd x.
Proof.
  intros H x y T. revert H. induction T as [x|f fs r d [r' d'] y E T IH]; intros H; [reflexivity|]. rewrite IH; [|intros g a b c e Hg; apply H; now right].
  cbn [snd]. eapply H; [now left|exact E].
Qed.
End RunFacts.
Lemma cond_holds_iff n want vars b : cond_holds [VStr n; want] vars = Ok b <->
  (b = true <-> veq (match dget vars (KS n) with Some v => v | None => VStr $"_undef_" end) want).
Proof.
  cbn [cond_holds key_of rbind]. rewrite <- py_eq_veq. destruct (py_eq _ want), b; split; intros H; try reflexivity; try discriminate.
  - exfalso; destruct H as [_ H]; now specialize (H eq_refl).
  - exfalso; destruct H as [H _]; now specialize (H eq_refl).
Qed.

(** ** is_equal *)
Theorem is_equal_iff load data x : compared data x -> exists b, is_equal load data = Ok b /\ (b = true <-> veq x load).
Proof.
  intros H. unfold is_equal. destruct H as [d x E|d E|l E|s E].
  - cbn [py_in rbind]. unfold anon. assert (dmem d (KS $"_anonymous_") = true) as -> by (apply dmem_true; now exists x). rewrite E.
    eexists. split; [reflexivity|apply py_eq_veq].
  - cbn [py_in rbind]. unfold anon. assert (dmem d (KS $"_anonymous_") = false) as -> by now apply dmem_false. eexists. split; [reflexivity|apply py_eq_veq].
  - cbn [py_in rbind]. assert (existsb (py_eq (VStr anon)) l = false) as ->.
    { apply not_true_is_false. intros K. apply existsb_exists in K as (y & Hy & Ey). apply py_eq_veq in Ey. inversion Ey; subst; [cbn in H; discriminate|]. contradiction. }
    eexists. split; [reflexivity|apply py_eq_veq].
  - cbn [py_in rbind]. destruct (containsb anon s) eqn:K; [|eexists; split; [reflexivity|apply py_eq_veq]].
    exfalso. apply E. apply containsb_spec in K as (a & b & ->). now exists a, b.
Qed.
Theorem is_equal_raises load data : (exists x, compared data x) \/ is_equal load data = Raise TypeError.
Proof.
  destruct data as [| | |s|l|d|]; try (right; reflexivity).
  - unfold is_equal. cbn [py_in rbind]. destruct (containsb anon s) eqn:E; [now right|]. left. exists (VStr s). constructor. intros (a & b & ->).
    assert (K : containsb anon (a ++ $"_anonymous_" ++ b) = true) by (apply containsb_spec; now exists a, b). congruence.
  - unfold is_equal. cbn [py_in rbind]. destruct (existsb (py_eq (VStr anon)) l) eqn:E; [now right|]. left. exists (VList l). constructor. intros K.
    assert (T : existsb (py_eq (VStr anon)) l = true); [|congruence]. apply existsb_exists. eexists. split; [exact K|]. apply py_eq_veq. constructor.
  - left. destruct (dget d (KS $"_anonymous_")) as [x|] eqn:E; eexists; [eapply cm_anon, E|apply cm_dict, E].
Qed.
Lemma compared_fun data x y : compared data x -> compared data y -> x = y.
Proof. intros H K. destruct H; inversion K; subst; congruence. Qed.

