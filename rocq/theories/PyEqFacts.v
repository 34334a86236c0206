(** * PyEqFacts: Python's [==] on values is "equal up to the order of
    dictionary entries (and True = 1, False = 0)". *)
From Verif Require Import PyBase DictFacts.

(** ** Specification *)
Definition num_of (v : val) : option Z :=
  match v with VBool b => Some (if b then 1 else 0)%Z | VInt z => Some z | _ => None end.

(** equality as Python documents it: mappings compare as mappings *)
Inductive veq : val -> val -> Prop :=
| veq_none : veq VNone VNone
| veq_num a b n : num_of a = Some n -> num_of b = Some n -> veq a b
| veq_str s : veq (VStr s) (VStr s)
| veq_obj n : veq (VObj n) (VObj n)
| veq_list x y : Forall2 veq x y -> veq (VList x) (VList y)
| veq_dict x y : length x = length y ->
    (forall k u, In (k, u) x -> exists v, dget y k = Some v /\ veq u v) -> veq (VDict x) (VDict y).

(** values as Python builds them: no dictionary has a key twice *)
Inductive vok : val -> Prop :=
| vok_none : vok VNone | vok_bool b : vok (VBool b) | vok_int z : vok (VInt z)
| vok_str s : vok (VStr s) | vok_obj n : vok (VObj n)
| vok_list l : Forall vok l -> vok (VList l)
| vok_dict d : dwf d -> Forall (fun kv => vok (snd kv)) d -> vok (VDict d).

(** ** Proofs *)
Lemma py_eq_list x y : py_eq (VList x) (VList y) = true <-> Forall2 (fun a b => py_eq a b = true) x y.
Proof.
  revert y; induction x as [|u x IH]; intros [|v y].
  - split; [constructor|reflexivity].
  - split; [discriminate|intros H; inversion H].
  - split; [discriminate|intros H; inversion H].
  - assert (E : py_eq (VList (u :: x)) (VList (v :: y)) = (py_eq u v && py_eq (VList x) (VList y))%bool) by reflexivity.
    rewrite E, andb_true_iff, IH. split.
    + intros [H1 H2]. now constructor.
    + intros H. inversion H; subst. now split.
Qed.

Lemma py_eq_dict x y : py_eq (VDict x) (VDict y) = true <->
  length x = length y /\ forall k u, In (k, u) x -> exists v, dget y k = Some v /\ py_eq u v = true.
Proof.
  cbn [py_eq]. rewrite andb_true_iff, Nat.eqb_eq.
  assert (L : forall u k (y : dict),
    (fix look (y : list (key * val)) : bool := match y with [] => false | (k', v) :: y' => if key_eqb k k' then py_eq u v else look y' end) y = true
    <-> exists v, dget y k = Some v /\ py_eq u v = true).
  { clear. intros u k. induction y as [|[k' v] y IH]; cbn [dget]; [split; [discriminate|intros (v & H & _); discriminate]|].
    destruct (key_eqb k k'); [|exact IH]. split; [eauto|intros (v' & H & H'); congruence]. }
  match goal with |- _ /\ ?f x = true <-> _ => assert (M : f x = true <->
     forall k u, In (k, u) x -> exists v, dget y k = Some v /\ py_eq u v = true) end.
  { clear - L. induction x as [|[k u] x IH]; [split; [intros _ k u []|reflexivity]|].
    rewrite andb_true_iff, (L u k y), IH. split.
    - intros [H1 H2] k' u' [E|Hin]; [injection E as <- <-; exact H1|exact (H2 _ _ Hin)].
    - intros H. split; [apply H; now left|intros k' u' Hin; apply H; now right]. }
  rewrite M. reflexivity.
Qed.

Theorem py_eq_veq a : forall b, py_eq a b = true <-> veq a b.
Proof.
  induction a using val_rect'; intros b2; split; intros Hx.
  - destruct b2; cbn in Hx; try discriminate. constructor.
  - inversion Hx; subst; try reflexivity; cbn in *; discriminate.
  - destruct b2; cbn in Hx; try discriminate.
    + apply Bool.eqb_prop in Hx. subst. eapply veq_num; reflexivity.
    + apply Z.eqb_eq in Hx. subst. eapply veq_num; reflexivity.
  - inversion Hx; subst; cbn in *; try discriminate. destruct b2; cbn in *; try discriminate.
    + injection H as <-. injection H0 as H0. destruct b, b0; try discriminate; reflexivity.
    + injection H as <-. injection H0 as H0. now apply Z.eqb_eq.
  - destruct b2; cbn in Hx; try discriminate.
    + apply Z.eqb_eq in Hx. subst. eapply veq_num; reflexivity.
    + apply Z.eqb_eq in Hx. subst. eapply veq_num; reflexivity.
  - inversion Hx; subst; cbn in *; try discriminate. destruct b2; cbn in *; try discriminate.
    + injection H as <-. injection H0 as H0. apply Z.eqb_eq. congruence.
    + injection H as <-. injection H0 as H0. apply Z.eqb_eq. congruence.
  - destruct b2; cbn in Hx; try discriminate. apply str_eqb_eq in Hx. subst. constructor.
  - inversion Hx; subst; cbn in *; try discriminate. apply str_eqb_refl.
  - destruct b2 as [| | | |l2| |]; try (cbn in Hx; discriminate). apply py_eq_list in Hx. constructor.
    revert l2 Hx; induction H as [|u l Hu Hl IH]; intros l2 Hx; inversion Hx; subst; constructor; [now apply Hu|]. now apply IH.
  - inversion Hx as [|? ? ? E| | |? l2 HF|]; subst; [cbn in E; discriminate|]. apply py_eq_list.
    revert l2 Hx HF; induction H as [|u l Hu Hl IH]; intros l2 Hx HF; inversion HF; subst; constructor; [now apply Hu|].
    apply IH; [now constructor|assumption].
  - destruct b2 as [| | | | |d2|]; try (cbn in Hx; discriminate). apply py_eq_dict in Hx as [Hl Hx]. constructor; [exact Hl|].
    rewrite Forall_forall in H.
    intros k u Hin. destruct (Hx k u Hin) as (v & Hv & He). exists v. split; [exact Hv|]. now apply (H (k, u) Hin).
  - inversion Hx as [|? ? ? E| | | |? d2 Hl HF]; subst; [cbn in E; discriminate|]. apply py_eq_dict. split; [exact Hl|].
    rewrite Forall_forall in H.
    intros k u Hin. destruct (HF k u Hin) as (v & Hv & He). exists v. split; [exact Hv|]. now apply (H (k, u) Hin).
  - destruct b2; cbn in Hx; try discriminate. apply Nat.eqb_eq in Hx. subst. constructor.
  - inversion Hx; subst; cbn in *; try discriminate. apply Nat.eqb_refl.
Qed.

Lemma veq_refl v : vok v -> veq v v.
Proof.
  induction v using val_rect'; intros Hok; inversion Hok; subst.
  - constructor.
  - eapply veq_num; reflexivity.
  - eapply veq_num; reflexivity.
  - constructor.
  - constructor. clear Hok. revert H1. induction H as [|u l Hu Hl IH]; intros Hf; constructor; inversion Hf; subst; auto.
  - constructor; [reflexivity|]. intros k u Hin. exists u. rewrite Forall_forall in H, H2. split; [now apply In_dget|].
    apply (H (k, u) Hin), (H2 (k, u) Hin).
  - constructor.
Qed.

Lemma py_eq_refl v : vok v -> py_eq v v = true.
Proof. intros H. now apply py_eq_veq, veq_refl. Qed.

(** symmetry needs the key sets to be equal, which the length and uniqueness give *)
Lemma veq_sym a : forall b, vok a -> vok b -> veq a b -> veq b a.
Proof.
  induction a using val_rect'; intros b2 Ha Hb Hx.
  - inversion Hx; subst; [constructor|cbn in *; discriminate].
  - inversion Hx; subst; cbn in *; try discriminate. eapply veq_num; eassumption.
  - inversion Hx; subst; cbn in *; try discriminate. eapply veq_num; eassumption.
  - inversion Hx; subst; cbn in *; try discriminate. constructor.
  - inversion Hx as [|? ? ? E| | |? l2 HF|]; subst; [cbn in E; discriminate|]. constructor.
    inversion Ha as [| | | | |? Hal|]; inversion Hb as [| | | | |? Hbl|]; subst. clear Ha Hb Hx.
    revert l2 HF Hbl. induction H as [|u l Hu Hl IH]; intros l2 HF Hbl; inversion HF; subst; constructor;
    inversion Hal; inversion Hbl; subst; auto.
  - inversion Hx as [|? ? ? E| | | |? d2 Hl HF]; subst; [cbn in E; discriminate|].
    inversion Ha as [| | | | | |? Hwa Hva]; inversion Hb as [| | | | | |? Hwb Hvb]; subst.
    constructor; [now symmetry|]. rewrite Forall_forall in H, Hva, Hvb. intros k v Hin.
    assert (Hk : In k (dkeys d)).
    { assert (Hincl : incl (dkeys d2) (dkeys d)).
      { apply NoDup_length_incl; [exact Hwa|unfold dkeys; rewrite !map_length; lia|].
        intros k' Hk'. apply in_map_iff in Hk' as ((k1 & u1) & <- & Hin'). destruct (HF _ _ Hin') as (v1 & Hv1 & _).
        apply in_map_iff. exists (k1, v1). split; [reflexivity|now apply dget_In]. }
      apply Hincl, in_map_iff. exists (k, v). now split. }
    apply in_map_iff in Hk as ((k0 & u) & E & Hin'). cbn in E. subst k0. exists u. split; [now apply In_dget|].
    destruct (HF _ _ Hin') as (v' & Hv' & He). assert (v' = v) by (apply (In_dget _ _ _ Hwb) in Hin; congruence). subst.
    apply (H (k, u) Hin'); [exact (Hva (k, u) Hin')|exact (Hvb (k, v) Hin)|exact He].
  - inversion Hx; subst; cbn in *; try discriminate. constructor.
Qed.

Lemma veq_trans a : forall b c, veq a b -> veq b c -> veq a c.
Proof.
  induction a using val_rect'; intros b2 c Hx Hy.
  - inversion Hx; subst; [exact Hy|cbn in *; discriminate].
  - inversion Hx; subst; cbn in *; try discriminate. inversion Hy; subst; cbn in *; try discriminate. eapply veq_num; [eassumption|congruence].
  - inversion Hx; subst; cbn in *; try discriminate. inversion Hy; subst; cbn in *; try discriminate. eapply veq_num; [eassumption|congruence].
  - inversion Hx; subst; cbn in *; try discriminate. exact Hy.
  - inversion Hx as [|? ? ? E| | |? l2 HF|]; subst; [cbn in E; discriminate|].
    inversion Hy as [|? ? ? E| | |? l3 HG|]; subst; [cbn in E; discriminate|]. constructor. clear Hx Hy.
    revert l2 l3 HF HG. induction H as [|u l Hu Hl IH]; intros l2 l3 HF HG; inversion HF; subst; inversion HG; subst; constructor; eauto.
  - inversion Hx as [|? ? ? E| | | |? d2 Hl HF]; subst; [cbn in E; discriminate|].
    inversion Hy as [|? ? ? E| | | |? d3 Hl' HG]; subst; [cbn in E; discriminate|]. constructor; [congruence|].
    rewrite Forall_forall in H. intros k u Hin. destruct (HF _ _ Hin) as (v & Hv & He).
    destruct (HG k v (dget_In _ _ _ Hv)) as (w & Hw & He'). exists w. split; [exact Hw|]. exact (H (k, u) Hin _ _ He He').
  - inversion Hx; subst; cbn in *; try discriminate. exact Hy.
Qed.
