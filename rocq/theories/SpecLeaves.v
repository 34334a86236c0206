(** * SpecLeaves: the scalars a nested value is made of. *)
From Verif Require Import PyBase Tree SpecTree.

(** every scalar inside [v] satisfies [S] *)
Fixpoint made_of (S : val -> Prop) (v : val) : Prop :=
  match v with
  | VList l => (fix go (l : list val) : Prop := match l with [] => True | x :: t => made_of S x /\ go t end) l
  | VDict d => (fix go (d : list (key * val)) : Prop :=
                  match d with [] => True | kv :: t => made_of S (snd kv) /\ go t end) d
  | _ => S v
  end.

Lemma made_list S l : made_of S (VList l) <-> Forall (made_of S) l.
Proof.
  cbn [made_of]. induction l as [|x l IH]; split; intros H; [constructor|exact I| |].
  - destruct H as [H1 H2]. constructor; [exact H1|]. apply IH. exact H2.
  - inversion H; subst. split; [assumption|]. apply IH. assumption.
Qed.
Lemma made_dict S d : made_of S (VDict d) <-> Forall (fun kv => made_of S (snd kv)) d.
Proof.
  cbn [made_of]. induction d as [|x l IH]; split; intros H; [constructor|exact I| |].
  - destruct H as [H1 H2]. constructor; [exact H1|]. apply IH. exact H2.
  - inversion H; subst. split; [assumption|]. apply IH. assumption.
Qed.

(** what it says about reads: whatever scalar can be read anywhere satisfies [S] *)
Lemma made_of_reads S v : made_of S v -> forall a w, get_at a v = Some w -> scalar w = true -> S w.
Proof.
  intros H a. revert v H. induction a as [|[k|i] a IH]; intros v H w Hg Hs; cbn [get_at] in Hg.
  - injection Hg as <-. destruct v; try discriminate; exact H.
  - destruct v as [| | | | |d|]; try discriminate. destruct (dget d k) as [x|] eqn:Ek; [|discriminate].
    apply (IH x); auto. apply made_dict in H. rewrite Forall_forall in H.
    assert (exists k', In (k', x) d) as [k' Hi].
    { clear -Ek. induction d as [|[k0 y] d IHd]; [discriminate|]. cbn [dget] in Ek.
      destruct (key_eqb k k0); [injection Ek as ->; eexists; left; reflexivity|].
      destruct (IHd Ek) as [k' ?]. exists k'. now right. }
    apply (H _ Hi).
  - destruct v as [| | | |l| |]; try discriminate. destruct (nth_error l i) as [x|] eqn:Ei; [|discriminate].
    apply (IH x); auto. apply made_list in H. rewrite Forall_forall in H. apply H. eapply nth_error_In; eauto.
Qed.
