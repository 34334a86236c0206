(** * PathFacts: static path items, and the simple dynamic ones. *)
From Verif Require Import PyBase DictFacts Regex Tree Results SpecTree ResultsFacts.

Definition static_item (p : str) : bool := negb (containsb $"{{" p).

Lemma mt_lit_prefix l : forall r s c k, mt (RSeq (rlit l) r) s c k =
  if prefixb l s then mt r (skipn (length l) s) c k else None.
Proof.
  cbn [mt]. induction l as [|x l IH]; intros r s c k; [reflexivity|].
  cbn [rlit mt]. destruct s as [|y s]; [reflexivity|].
  cbn [rchar set_match]. unfold rchar. cbn [mt]. unfold set_match. cbn [existsb citem_match].
  rewrite orb_false_r. cbn [prefixb]. destruct (Ascii.eqb x y); [|reflexivity].
  cbn [xorb andb skipn length]. apply IH.
Qed.

Lemma dyn_none s : containsb $"{{" s = false -> rmatch dyn_re s = None.
Proof.
  intros H. unfold rmatch, dyn_re. rewrite mt_lit_prefix.
  destruct (prefixb $"{{" s) eqn:E; [|reflexivity].
  destruct s; simpl in *; [discriminate|]. rewrite E in H. discriminate.
Qed.

Lemma finditer_none s : forall fuel pos, containsb $"{{" s = false -> finditer_go fuel dyn_re s pos = [].
Proof.
  induction s as [|x s IH]; intros fuel pos H; (destruct fuel as [|f]; [reflexivity|]); cbn [finditer_go].
  - now rewrite dyn_none by exact H.
  - rewrite dyn_none by exact H. apply IH. cbn [containsb] in H. apply orb_false_iff in H. tauto.
Qed.

Lemma dyn_vars_static s : static_item s = true -> dyn_vars s = [].
Proof.
  unfold static_item, dyn_vars. intros H. apply negb_true_iff in H. unfold finditer. now rewrite finditer_none.
Qed.

(** a group path without dynamic items *)
Definition static_path (path : list str) : Prop :=
  Forall (fun p => static_item (fst (split_stars p)) = true) path.

Lemma form_path_static vars path : forall data cache, static_path path ->
  form_path vars path data cache = Ok (Some (map split_stars path), data, cache).
Proof.
  induction path as [|p path IH]; intros data cache H; [reflexivity|].
  inversion H as [|? ? H1 H2]; subst. cbn [form_path map]. destruct (split_stars p) as [b st] eqn:E.
  cbn [fst] in H1. rewrite dyn_vars_static by exact H1. cbn [subst_vars rbind].
  rewrite IH by exact H2. reflexivity.
Qed.
