(** * DictFacts: lemmas about strings, keys and ordered dictionaries. *)
From Verif Require Import PyBase.

Lemma str_eqb_spec (a b : str) : reflect (a = b) (str_eqb a b).
Proof.
  revert b; induction a as [|x a IH]; intros [|y b]; simpl; try (constructor; congruence).
  destruct (Ascii.eqb_spec x y) as [->|Hxy]; simpl.
  - destruct (IH b) as [->|Hab]; constructor; congruence.
  - constructor; congruence.
Qed.
Lemma str_eqb_refl a : str_eqb a a = true.
Proof. destruct (str_eqb_spec a a); congruence. Qed.
Lemma str_eqb_eq a b : str_eqb a b = true <-> a = b.
Proof. destruct (str_eqb_spec a b); split; congruence. Qed.
Lemma str_eqb_neq a b : str_eqb a b = false <-> a <> b.
Proof. destruct (str_eqb_spec a b); split; congruence. Qed.

Lemma key_eqb_spec (a b : key) : reflect (a = b) (key_eqb a b).
Proof.
  destruct a as [x|x|], b as [y|y|]; simpl; try (constructor; congruence).
  - destruct (str_eqb_spec x y); constructor; congruence.
  - destruct (Z.eqb_spec x y); constructor; congruence.
Qed.
Lemma key_eqb_refl a : key_eqb a a = true.
Proof. destruct (key_eqb_spec a a); congruence. Qed.
Lemma key_eqb_eq a b : key_eqb a b = true <-> a = b.
Proof. destruct (key_eqb_spec a b); split; congruence. Qed.
Lemma key_eqb_neq a b : key_eqb a b = false <-> a <> b.
Proof. destruct (key_eqb_spec a b); split; congruence. Qed.
Lemma key_dec (a b : key) : {a = b} + {a <> b}.
Proof. destruct (key_eqb_spec a b); auto. Qed.

Section D.
Context {V : Type}.
Implicit Types (d e : list (key * V)) (k : key) (v : V).

Lemma dget_dset_same d k v : dget (dset d k v) k = Some v.
Proof.
  induction d as [|[k' v'] d IH]; simpl.
  - now rewrite key_eqb_refl.
  - destruct (key_eqb k k') eqn:E; simpl; rewrite E; auto.
Qed.

Lemma dget_dset_other d k k' v : k <> k' -> dget (dset d k v) k' = dget d k'.
Proof.
  intros H; induction d as [|[j w] d IH]; simpl.
  - destruct (key_eqb_spec k' k); congruence.
  - destruct (key_eqb_spec k j) as [->|Hj]; simpl.
    + destruct (key_eqb_spec k' j); congruence.
    + destruct (key_eqb k' j); auto.
Qed.

Lemma dget_dset d k k' v : dget (dset d k v) k' = if key_eqb k' k then Some v else dget d k'.
Proof.
  destruct (key_eqb_spec k' k) as [->|H]; [apply dget_dset_same | apply dget_dset_other; congruence].
Qed.

Lemma dset_dset d k v w : dset (dset d k v) k w = dset d k w.
Proof.
  induction d as [|[j u] d IH]; simpl.
  - now rewrite key_eqb_refl.
  - destruct (key_eqb k j) eqn:E; simpl; rewrite E; congruence.
Qed.

Lemma dset_same d k v : dget d k = Some v -> dset d k v = d.
Proof.
  induction d as [|[j u] d IH]; simpl; [discriminate|].
  destruct (key_eqb_spec k j) as [->|H]; [congruence|]. intros Hd; now rewrite IH.
Qed.

Lemma dset_ne d k v : dset d k v <> [].
Proof. destruct d as [|[j u] d]; simpl; [congruence|]. destruct (key_eqb k j); congruence. Qed.

Lemma dupdate_cons d k v e : dupdate d ((k, v) :: e) = dupdate (dset d k v) e.
Proof. reflexivity. Qed.

Lemma dupdate_single d k v : dupdate d [(k, v)] = dset d k v.
Proof. reflexivity. Qed.

(** the last binding of [k] in an update list wins *)
Fixpoint dget_last (e : list (key * V)) (k : key) : option V :=
  match e with
  | [] => None
  | (j, v) :: t => match dget_last t k with
                   | Some w => Some w
                   | None => if key_eqb k j then Some v else None end
  end.

Lemma dget_dupdate_last e : forall d k,
  dget (dupdate d e) k = match dget_last e k with Some v => Some v | None => dget d k end.
Proof.
  induction e as [|[j v] e IH]; intros d k; [reflexivity|].
  rewrite dupdate_cons, IH; simpl. destruct (dget_last e k); [reflexivity|].
  rewrite dget_dset. destruct (key_eqb k j); reflexivity.
Qed.

Lemma dget_None_notin d k : dget d k = None <-> ~ In k (dkeys d).
Proof.
  induction d as [|[j v] d IH]; simpl; [tauto|].
  destruct (key_eqb_spec k j) as [->|H]; split; intros Hx; try congruence.
  - exfalso; apply Hx; auto.
  - intros [Hj|Hj]; [congruence|]. apply IH in Hx; auto.
  - apply IH. tauto.
Qed.

Lemma dget_In d k v : dget d k = Some v -> In (k, v) d.
Proof.
  induction d as [|[j w] d IH]; simpl; [discriminate|].
  destruct (key_eqb_spec k j) as [->|H]; intros Hd; [left; congruence | right; auto].
Qed.

Lemma In_dget d k v : dwf d -> In (k, v) d -> dget d k = Some v.
Proof.
  induction d as [|[j w] d IH]; simpl; [tauto|]. intros Hw [Hi|Hi].
  - injection Hi as -> ->. now rewrite key_eqb_refl.
  - inversion Hw as [|? ? Hnj Hw']; subst. destruct (key_eqb_spec k j) as [->|H]; auto.
    exfalso; apply Hnj. change j with (fst (j, v)). now apply in_map.
Qed.

Lemma dget_last_wf e k : dwf e -> dget_last e k = dget e k.
Proof.
  induction e as [|[j v] e IH]; simpl; [reflexivity|]. intros Hw.
  inversion Hw as [|? ? Hnj Hw']; subst. rewrite IH by exact Hw'.
  destruct (key_eqb_spec k j) as [->|H].
  - assert (dget e j = None) as ->; [now apply dget_None_notin | reflexivity].
  - now destruct (dget e k).
Qed.

Lemma dget_dupdate d e k : dwf e ->
  dget (dupdate d e) k = match dget e k with Some v => Some v | None => dget d k end.
Proof. intros H. now rewrite dget_dupdate_last, dget_last_wf. Qed.

Lemma dkeys_dset d k v : dkeys (dset d k v) = if dmem d k then dkeys d else dkeys d ++ [k].
Proof.
  unfold dmem, dkeys. induction d as [|[j w] d IH]; simpl; [reflexivity|].
  destruct (key_eqb_spec k j) as [->|H]; simpl; [reflexivity|].
  rewrite IH. destruct (dget d k); reflexivity.
Qed.

Lemma dwf_dset d k v : dwf d -> dwf (dset d k v).
Proof.
  unfold dwf. intros H. rewrite dkeys_dset. unfold dmem. destruct (dget d k) eqn:E; [exact H|].
  apply dget_None_notin in E.
  apply NoDup_rev in H. rewrite <- (rev_involutive (dkeys d ++ [k])). apply NoDup_rev.
  rewrite rev_app_distr. simpl. constructor; [now rewrite <- in_rev | exact H].
Qed.

Lemma dwf_dupdate e : forall d, dwf d -> dwf (dupdate d e).
Proof.
  induction e as [|[k v] e IH]; intros d H; [exact H|]. rewrite dupdate_cons. apply IH, dwf_dset, H.
Qed.

Lemma dwf_nil : @dwf V [].
Proof. constructor. Qed.

Lemma dmem_true d k : dmem d k = true <-> exists v, dget d k = Some v.
Proof. unfold dmem. destruct (dget d k) as [v|]; split; eauto; try congruence. intros [v Hv]; congruence. Qed.
Lemma dmem_false d k : dmem d k = false <-> dget d k = None.
Proof. unfold dmem. destruct (dget d k) as [v|]; split; congruence. Qed.

Lemma dget_ddel_same d k : dwf d -> dget (ddel d k) k = None.
Proof.
  induction d as [|[j v] d IH]; simpl; [reflexivity|]. intros Hw. inversion Hw as [|? ? Hn Hw']; subst.
  destruct (key_eqb_spec k j) as [->|H]; [now apply dget_None_notin|]. simpl.
  destruct (key_eqb_spec k j); [congruence|]. now apply IH.
Qed.
Lemma dget_ddel_other d k k' : k <> k' -> dget (ddel d k) k' = dget d k'.
Proof.
  intros H; induction d as [|[j v] d IH]; simpl; [reflexivity|].
  destruct (key_eqb_spec k j) as [->|Hj]; simpl.
  - destruct (key_eqb_spec k' j); congruence.
  - destruct (key_eqb k' j); auto.
Qed.
Lemma ddel_In d k x : In x (ddel d k) -> In x d.
Proof.
  induction d as [|[j v] d IH]; simpl; [tauto|]. destruct (key_eqb k j); simpl; tauto.
Qed.
Lemma dwf_ddel d k : dwf d -> dwf (ddel d k).
Proof.
  induction d as [|[j v] d IH]; simpl; [auto|]. intros Hw. inversion Hw as [|? ? Hn Hw']; subst.
  destruct (key_eqb k j); [exact Hw'|]. constructor; [|now apply IH].
  intros Hi. apply Hn. apply in_map_iff in Hi as [[a b] [Ha Hb]]. apply in_map_iff.
  exists (a, b); split; [exact Ha | eapply ddel_In; eauto].
Qed.

Lemma dset_In d k v x : In x (dset d k v) -> x = (k, v) \/ In x d \/ snd x = v.
Proof.
  induction d as [|[j w] d IH]; simpl.
  - intros [H|[]]; auto.
  - destruct (key_eqb_spec k j) as [->|H]; simpl; intros [Hx|Hx]; subst; auto.
    destruct (IH Hx) as [?|[?|?]]; auto.
Qed.
End D.

Lemma opt_last_app {A} (l : list A) x : opt_last (l ++ [x]) = Some x.
Proof. unfold opt_last. now rewrite rev_app_distr. Qed.
Lemma opt_last_None {A} (l : list A) : opt_last l = None <-> l = [].
Proof.
  unfold opt_last. split; [|now intros ->].
  destruct (rev l) eqn:E; [|discriminate]. intros _. rewrite <- (rev_involutive l), E. reflexivity.
Qed.
Lemma opt_last_Some {A} (l : list A) x : opt_last l = Some x <-> exists l', l = l' ++ [x].
Proof.
  split; [|intros [l' ->]; apply opt_last_app].
  unfold opt_last. destruct (rev l) as [|y t] eqn:E; [discriminate|]. intros [= ->].
  exists (rev t). rewrite <- (rev_involutive l), E. reflexivity.
Qed.
Lemma opt_last_cons {A} (x y : A) l : opt_last (x :: y :: l) = opt_last (y :: l).
Proof.
  destruct (opt_last (y :: l)) as [z|] eqn:E.
  - apply opt_last_Some in E as [l' ->]. apply opt_last_Some. exists (x :: l'). reflexivity.
  - apply opt_last_None in E. discriminate.
Qed.
Lemma set_last_app {A} (l : list A) x y : set_last (l ++ [x]) y = l ++ [y].
Proof. unfold set_last. now rewrite removelast_last. Qed.
Lemma set_last_length {A} (l : list A) y : l <> [] -> length (set_last l y) = length l.
Proof.
  destruct (opt_last l) as [x|] eqn:E.
  - apply opt_last_Some in E as [l' ->]. intros _. rewrite set_last_app, !app_length. reflexivity.
  - apply opt_last_None in E. congruence.
Qed.
