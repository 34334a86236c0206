(** * StrFacts: splitting, joining, replacing, integers as text. *)
From Verif Require Import PyBase DictFacts.
From Coq Require DecimalN.

(** ** join *)
Lemma join_cons sep x y l : join sep (x :: y :: l) = x ++ sep ++ join sep (y :: l).
Proof. reflexivity. Qed.
Lemma join_one sep x : join sep [x] = x.
Proof. reflexivity. Qed.
Lemma join_app sep a b : a <> [] -> b <> [] -> join sep (a ++ b) = join sep a ++ sep ++ join sep b.
Proof.
  intros Ha Hb. induction a as [|x a IH]; [congruence|].
  destruct a as [|y a].
  - simpl. destruct b; [congruence|reflexivity].
  - change ((x :: y :: a) ++ b) with (x :: y :: (a ++ b)). rewrite !join_cons.
    change (y :: a ++ b) with ((y :: a) ++ b). rewrite IH by congruence. now rewrite !app_assoc.
Qed.

(** ** split at a single character *)
Definition lacks (c : ascii) (s : str) : Prop := ~ In c s.

Lemma prefixb_char c x t : prefixb [c] (x :: t) = Ascii.eqb c x.
Proof. simpl. now rewrite andb_true_r. Qed.

Lemma split_go_lacks c s : forall acc, lacks c s -> split_go [c] s acc 0 = [rev acc ++ s].
Proof.
  induction s as [|x s IH]; intros acc H; [simpl; now rewrite app_nil_r|].
  cbn [split_go]. rewrite prefixb_char.
  destruct (Ascii.eqb_spec c x) as [->|Hx]; [exfalso; apply H; now left|].
  rewrite IH; [|intros Hi; apply H; now right]. simpl. now rewrite <- app_assoc.
Qed.

Lemma split_go_app c s t : forall acc, lacks c s ->
  split_go [c] (s ++ c :: t) acc 0 = (rev acc ++ s) :: split [c] t.
Proof.
  induction s as [|x s IH]; intros acc H.
  - cbn [app split_go]. rewrite prefixb_char, Ascii.eqb_refl. now rewrite app_nil_r.
  - cbn [app split_go]. rewrite prefixb_char.
    destruct (Ascii.eqb_spec c x) as [->|Hx]; [exfalso; apply H; now left|].
    rewrite IH; [|intros Hi; apply H; now right]. simpl. now rewrite <- app_assoc.
Qed.

Lemma split_lacks c s : lacks c s -> split [c] s = [s].
Proof. intros H. unfold split. now rewrite split_go_lacks. Qed.
Lemma split_app c s t : lacks c s -> split [c] (s ++ c :: t) = s :: split [c] t.
Proof. intros H. unfold split at 1. now rewrite split_go_app. Qed.

(** splitting undoes joining *)
Lemma split_join c l : l <> [] -> Forall (lacks c) l -> split [c] (join [c] l) = l.
Proof.
  intros Hne H. induction l as [|x l IH]; [congruence|].
  inversion H as [|? ? Hx Hl]; subst. destruct l as [|y l].
  - rewrite join_one. now apply split_lacks.
  - rewrite join_cons. change (x ++ [c] ++ join [c] (y :: l)) with (x ++ c :: join [c] (y :: l)).
    rewrite split_app by exact Hx. now rewrite IH.
Qed.

(** every text is the join of its pieces, none of which has the character *)
Lemma split_go_pieces c s : forall acc, Forall (lacks c) (split_go [c] s acc 0) \/ In c acc.
Proof.
  induction s as [|x s IH]; intros acc.
  - simpl. destruct (in_dec ascii_dec c acc) as [H|H]; [now right|left].
    constructor; [|constructor]. intros Hi. apply H. now apply in_rev.
  - cbn [split_go]. rewrite prefixb_char. destruct (Ascii.eqb_spec c x) as [->|Hx].
    + destruct (in_dec ascii_dec x acc) as [H|H]; [now right|left].
      constructor; [intros Hi; apply H; now apply in_rev|]. destruct (IH []) as [H1|H1]; [exact H1|easy].
    + destruct (IH (x :: acc)) as [H1|H1]; [now left|]. destruct H1 as [H1|H1]; [congruence|now right].
Qed.
Lemma split_pieces c s : Forall (lacks c) (split [c] s).
Proof. destruct (split_go_pieces c s []) as [H|H]; [exact H|easy]. Qed.

Lemma split_ne sep s : split sep s <> [].
Proof.
  unfold split. enough (H : forall acc k, split_go sep s acc k <> []) by apply H.
  induction s as [|x s IH]; intros acc k; [discriminate|]. cbn [split_go].
  destruct k as [|k]; [|apply IH]. destruct (prefixb sep (x :: s)); [discriminate|apply IH].
Qed.

Lemma prefixb_app p s : prefixb p s = true <-> exists t, s = p ++ t.
Proof.
  revert s; induction p as [|x p IH]; intros s.
  - split; [exists s; reflexivity | reflexivity].
  - destruct s as [|y s]; simpl; [split; [discriminate|intros [t Ht]; discriminate]|].
    rewrite andb_true_iff, Ascii.eqb_eq, IH. split.
    + intros [-> [t ->]]. now exists t.
    + intros [t Ht]. injection Ht as -> ->. split; [reflexivity|now exists t].
Qed.

(** general separator: joining undoes splitting *)
Lemma split_go_skip sep s : forall acc k, k <= length s ->
  split_go sep s acc k = split_go sep (skipn k s) acc 0.
Proof.
  induction s as [|x s IH]; intros acc k Hk; simpl in Hk.
  - assert (k = 0) as -> by lia. reflexivity.
  - destruct k as [|k]; [reflexivity|]. simpl. apply IH. lia.
Qed.
Lemma split_go_prefix sep s acc : sep <> [] -> prefixb sep s = true ->
  split_go sep s acc 0 = rev acc :: split_go sep (skipn (length sep) s) [] 0.
Proof.
  intros Hs Hp. destruct s as [|x s]; [destruct sep; [congruence|discriminate]|].
  cbn [split_go]. rewrite Hp. f_equal. apply prefixb_app in Hp as [t Ht].
  destruct sep as [|y sep]; [congruence|]. injection Ht as -> ->.
  rewrite split_go_skip by (rewrite app_length; simpl; lia). simpl. now rewrite Nat.sub_0_r.
Qed.
Lemma skipn_app_exact {A} (a b : list A) : skipn (length a) (a ++ b) = b.
Proof. induction a; simpl; auto. Qed.

Lemma split_go_ne sep s acc k : split_go sep s acc k <> [].
Proof.
  revert acc k. induction s as [|x s IH]; intros acc k; [discriminate|]. cbn [split_go].
  destruct k as [|k]; [|apply IH]. destruct (prefixb sep (x :: s)); [discriminate|apply IH].
Qed.

Lemma join_split_go sep n : sep <> [] -> forall s acc, length s <= n ->
  join sep (split_go sep s acc 0) = rev acc ++ s.
Proof.
  intros Hsep. induction n as [|n IH]; intros s acc Hn.
  - destruct s; [|simpl in Hn; lia]. simpl. now rewrite app_nil_r.
  - destruct s as [|x s]; [simpl; now rewrite app_nil_r|].
    destruct (prefixb sep (x :: s)) eqn:Hp.
    + rewrite split_go_prefix by assumption. apply prefixb_app in Hp as [t Ht].
      rewrite Ht, skipn_app_exact. destruct (split_go sep t [] 0) as [|y l] eqn:E.
      * exfalso. now apply (split_go_ne sep t [] 0).
      * rewrite join_cons, <- E. rewrite IH; [reflexivity|].
        destruct sep as [|z sep]; [congruence|]. injection Ht as _ Ht.
        simpl in Hn. subst s. rewrite app_length in Hn. lia.
    + cbn [split_go]. rewrite Hp. rewrite IH by (simpl in Hn; lia). simpl. now rewrite <- app_assoc.
Qed.
Lemma join_split sep s : sep <> [] -> join sep (split sep s) = s.
Proof. intros H. unfold split. now rewrite (join_split_go sep (length s)). Qed.

(** replacing is splitting at the old and joining with the new *)
Lemma replace_go_skip old new s : forall k, k <= length s ->
  replace_go old new s k = replace_go old new (skipn k s) 0.
Proof.
  induction s as [|x s IH]; intros k Hk; simpl in Hk.
  - assert (k = 0) as -> by lia. reflexivity.
  - destruct k as [|k]; [reflexivity|]. simpl. apply IH. lia.
Qed.
Lemma replace_go_prefix old new s : old <> [] -> prefixb old s = true ->
  replace_go old new s 0 = new ++ replace_go old new (skipn (length old) s) 0.
Proof.
  intros Hs Hp. destruct s as [|x s]; [destruct old; [congruence|discriminate]|].
  cbn [replace_go]. rewrite Hp. f_equal. apply prefixb_app in Hp as [t Ht].
  destruct old as [|y old]; [congruence|]. injection Ht as -> ->.
  rewrite replace_go_skip by (rewrite app_length; simpl; lia). simpl. now rewrite Nat.sub_0_r.
Qed.
Lemma replace_go_split old new n : old <> [] -> forall s acc, length s <= n ->
  rev acc ++ replace_go old new s 0 = join new (split_go old s acc 0).
Proof.
  intros Hold. induction n as [|n IH]; intros s acc Hn.
  - destruct s; [|simpl in Hn; lia]. simpl. now rewrite app_nil_r.
  - destruct s as [|x s]; [simpl; now rewrite app_nil_r|].
    destruct (prefixb old (x :: s)) eqn:Hp.
    + rewrite split_go_prefix, replace_go_prefix by assumption. apply prefixb_app in Hp as [t Ht].
      rewrite Ht, skipn_app_exact. destruct (split_go old t [] 0) as [|y l] eqn:E.
      * exfalso. now apply (split_go_ne old t [] 0).
      * rewrite join_cons, <- E. rewrite <- IH; [reflexivity|].
        destruct old as [|z old]; [congruence|]. injection Ht as _ Ht.
        simpl in Hn. subst s. rewrite app_length in Hn. lia.
    + cbn [split_go replace_go]. rewrite Hp. rewrite <- IH by (simpl in Hn; lia). simpl. now rewrite <- app_assoc.
Qed.
Lemma replace_split old new s : old <> [] -> replace_all old new s = join new (split old s).
Proof.
  intros H. unfold replace_all. destruct old as [|c old]; [congruence|].
  unfold split. rewrite <- (replace_go_split (c :: old) new (length s)) by (congruence || lia). reflexivity.
Qed.

(** [sub in s] *)
Lemma containsb_spec sub s : containsb sub s = true <-> exists a b, s = a ++ sub ++ b.
Proof.
  induction s as [|x s IH].
  - simpl. rewrite orb_false_r, prefixb_app. split.
    + intros [t Ht]. exists [], t. exact Ht.
    + intros (a & b & H). destruct a; [|discriminate]. now exists b.
  - cbn [containsb]. rewrite orb_true_iff, prefixb_app, IH. split.
    + intros [[t Ht]|(a & b & Hab)]; [exists [], t; exact Ht|].
      exists (x :: a), b. now rewrite Hab.
    + intros (a & b & H). destruct a as [|y a]; [left; now exists b|].
      right. injection H as -> ->. now exists a, b.
Qed.
Lemma containsb_char c s : containsb [c] s = true <-> In c s.
Proof.
  rewrite containsb_spec. split.
  - intros (a & b & ->). apply in_or_app. right. now left.
  - intros H. apply in_split in H as (a & b & ->). now exists a, b.
Qed.
Lemma containsb_char_false c s : containsb [c] s = false <-> lacks c s.
Proof. unfold lacks. rewrite <- containsb_char. destruct (containsb [c] s); split; congruence. Qed.

(** ** integers *)
Lemma digits_val_app a : forall b acc, digits_val (a ++ b) acc = digits_val b (digits_val a acc).
Proof. induction a as [|x a IH]; intros b acc; simpl; auto. Qed.

Lemma uint_str_dec d : Forall (fun c => is_dec c = true) (uint_str d).
Proof. induction d; simpl; constructor; try assumption; reflexivity. Qed.

(** reading back the digits of a number *)
Ltac digit_step IH d :=
  match goal with |- context [Pos.of_uint_acc d ?q] =>
    let H1 := fresh in let H2 := fresh in let p := fresh "p" in
    destruct (IH q) as [H1 [p H2]];
    match goal with |- context [digits_val (uint_str d) ?e] =>
      replace e with (N.pos q) by (unfold digit_val;
        match goal with |- context [code ?c] => let w := eval vm_compute in (code c) in change (code c) with w end; lia) end;
    rewrite H1, H2; split; [reflexivity | now exists p] end.
Lemma of_uint_acc_spec d : forall acc,
  Pos.of_uint_acc d acc = match digits_val (uint_str d) (Npos acc) with N0 => acc | Npos p => p end
  /\ (exists p, digits_val (uint_str d) (Npos acc) = Npos p).
Proof.
  induction d as [|d IH|d IH|d IH|d IH|d IH|d IH|d IH|d IH|d IH|d IH]; intros acc;
    [split; [reflexivity | now exists acc] | ..];
    cbn [Pos.of_uint_acc uint_str digits_val]; digit_step IH d.
Qed.

Lemma of_uint_digits d : N.of_uint d = digits_val (uint_str d) 0.
Proof.
  unfold N.of_uint.
  induction d as [|d IH|d IH|d IH|d IH|d IH|d IH|d IH|d IH|d IH|d IH];
    [reflexivity | simpl; exact IH | ..];
    cbn [Pos.of_uint uint_str digits_val];
    match goal with |- context [Pos.of_uint_acc d ?q] =>
         let H1 := fresh in let H2 := fresh in let p := fresh "p" in
         destruct (of_uint_acc_spec d q) as [H1 [p H2]];
         match goal with |- context [digits_val (uint_str d) ?e] => change e with (N.pos q) end;
         rewrite H1, H2; reflexivity end.
Qed.

Lemma digits_val_str n : digits_val (str_of_N n) 0 = n.
Proof. unfold str_of_N. rewrite <- of_uint_digits. apply DecimalN.Unsigned.of_to. Qed.

Lemma str_of_N_dec n : Forall (fun c => is_dec c = true) (str_of_N n).
Proof. apply uint_str_dec. Qed.
Lemma str_of_N_ne n : str_of_N n <> [].
Proof.
  unfold str_of_N. intros H. assert (E : N.to_uint n = Decimal.Nil).
  { destruct (N.to_uint n); simpl in H; congruence. }
  pose proof (DecimalN.Unsigned.of_to n) as Hn. rewrite E in Hn. simpl in Hn. subst n. discriminate.
Qed.

(** *** [int()] of plain digits *)
Lemma is_dec_code c : is_dec c = true -> (48 <= code c <= 57)%N.
Proof. unfold is_dec, between. rewrite andb_true_iff, !N.leb_le. tauto. Qed.
Lemma dec_not_space c : is_dec c = true -> is_space c = false.
Proof.
  intros H. apply is_dec_code in H. unfold is_space, between.
  repeat match goal with |- context [N.leb ?a ?b] => destruct (N.leb_spec a b) end;
  repeat match goal with |- context [N.eqb ?a ?b] => destruct (N.eqb_spec a b) end; simpl; try reflexivity; lia.
Qed.
Lemma lstrip_id p s : match s with [] => True | c :: _ => p c = false end -> lstrip_p p s = s.
Proof. destruct s as [|c s]; simpl; [reflexivity|]. intros ->. reflexivity. Qed.
Lemma strip_id s : Forall (fun c => is_space c = false) s -> strip s = s.
Proof.
  intros H. unfold strip, lstrip, rstrip, rstrip_p.
  rewrite (lstrip_id is_space (rev s)).
  - rewrite rev_involutive. apply lstrip_id. destruct s; [exact I|]. now inversion H.
  - destruct (rev s) as [|c t] eqn:E; [exact I|].
    assert (In c s) as Hi. { apply in_rev. rewrite E. now left. }
    now rewrite Forall_forall in H; apply H.
Qed.
Lemma int_digits_dec s b : s <> [] \/ b = true -> Forall (fun c => is_dec c = true) s -> int_digits s b = Some s.
Proof.
  revert b; induction s as [|c s IH]; intros b Hne H.
  - destruct Hne as [Hne| ->]; [congruence|reflexivity].
  - inversion H as [|? ? Hc Hs]; subst. cbn [int_digits]. rewrite Hc. rewrite IH by auto. reflexivity.
Qed.
Lemma py_int_dec s : s <> [] -> Forall (fun c => is_dec c = true) s -> py_int s = Some (Z.of_N (digits_val s 0)).
Proof.
  intros Hne H. unfold py_int. rewrite strip_id.
  2: { eapply Forall_impl; [|exact H]. intros; now apply dec_not_space. }
  destruct s as [|c s]; [congruence|]. inversion H as [|? ? Hc Hs]; subst.
  destruct (Ascii.eqb_spec c "-") as [->|H1]; [discriminate Hc|].
  destruct (Ascii.eqb_spec c "+") as [->|H2]; [discriminate Hc|].
  rewrite int_digits_dec by auto. reflexivity.
Qed.
(** [int(str(z)) == z] *)
Lemma py_int_str z : py_int (str_of_Z z) = Some z.
Proof.
  destruct z as [|p|p].
  - reflexivity.
  - unfold str_of_Z. rewrite py_int_dec; [|apply str_of_N_ne|apply str_of_N_dec].
    now rewrite digits_val_str.
  - unfold str_of_Z, py_int. rewrite strip_id.
    + rewrite int_digits_dec; [|left; apply str_of_N_ne|apply str_of_N_dec].
      rewrite Ascii.eqb_refl. now rewrite digits_val_str.
    + constructor; [reflexivity|]. eapply Forall_impl; [|apply str_of_N_dec].
      intros; now apply dec_not_space.
Qed.
Lemma str_of_Z_ne z : str_of_Z z <> [].
Proof. destruct z; simpl; try discriminate; apply str_of_N_ne. Qed.

(** [s.isdigit()] of decimal digits *)
Lemma isdigit_dec s : s <> [] -> Forall (fun c => is_dec c = true) s -> isdigit s = true.
Proof.
  intros Hne H. destruct s as [|c s]; [congruence|]. unfold isdigit, all_chars.
  apply forallb_forall. rewrite Forall_forall in H. intros x Hx. unfold is_digitc. now rewrite (H x Hx).
Qed.
