(** * ConvertFacts: which texts [int()] reads. *)
From Verif Require Import PyBase DictFacts StrFacts SpecConvert.
Local Open Scope string_scope.
Local Open Scope list_scope.

Definition allsp (s : str) : Prop := Forall (fun c => is_space c = true) s.
Definition tight (s : str) : Prop := match s with [] => True | c :: _ => is_space c = false end.
Lemma lstrip_split s : exists b, s = b ++ lstrip_p is_space s /\ allsp b /\ tight (lstrip_p is_space s).
Proof.
  induction s as [|c s IH]; [exists []; repeat split; constructor|]. cbn [lstrip_p]. destruct (is_space c) eqn:E.
  - destruct IH as (b & H1 & H2 & H3). exists (c :: b). split; [cbn [app]; now rewrite <- H1|]. split; [now constructor|exact H3].
  - exists []. repeat split; [constructor|exact E].
Qed.
Lemma lstrip_app b s : allsp b -> lstrip_p is_space (b ++ s) = lstrip_p is_space s.
Proof. induction 1 as [|c b H Hb IH]; [reflexivity|]. cbn [app lstrip_p]. now rewrite H. Qed.
Lemma tight_app s t : s <> [] -> tight s -> tight (s ++ t).
Proof. destruct s; [congruence|]. now intros _ H. Qed.
Lemma strip_split s : exists b1 b2, s = b1 ++ strip s ++ b2 /\ allsp b1 /\ allsp b2.
Proof.
  unfold strip, lstrip, rstrip, rstrip_p. destruct (lstrip_split (rev s)) as (b2 & H1 & H2 & _).
  set (m := rev (lstrip_p is_space (rev s))) in *. destruct (lstrip_split m) as (b1 & H3 & H4 & _).
  exists b1, (rev b2). split; [|split; [exact H4|now apply Forall_rev]].
  rewrite app_assoc, <- H3. rewrite <- (rev_involutive s), H1, rev_app_distr. reflexivity.
Qed.
Lemma strip_pad b1 s b2 : allsp b1 -> allsp b2 -> s <> [] -> tight s -> tight (rev s) -> strip (b1 ++ s ++ b2) = s.
Proof.
  intros H1 H2 Hne Ht Hr. unfold strip, lstrip, rstrip, rstrip_p. rewrite !rev_app_distr, <- app_assoc, lstrip_app by now apply Forall_rev.
  rewrite (lstrip_id is_space (rev s ++ rev b1)).
  - rewrite rev_app_distr, !rev_involutive, lstrip_app by exact H1. apply lstrip_id. exact Ht.
  - assert (Hn : rev s <> []) by (intros E; apply Hne; rewrite <- (rev_involutive s), E; reflexivity).
    destruct (rev s); [congruence|]. exact Hr.
Qed.

Definition decs (s : str) : Prop := Forall (fun c => is_dec c = true) s.
Lemma int_digits_split s : forall b r, int_digits s b = Some r -> exists first runs,
  decs first /\ (b = false -> first <> []) /\ Forall digit_run runs /\ s = join $"_" (first :: runs) /\ r = concat (first :: runs).
Proof.
  induction s as [|c s IH]; intros b r H.
  - cbn [int_digits] in H. destruct b; [|discriminate]. injection H as <-. exists [], []. repeat split; try constructor. discriminate.
  - cbn [int_digits] in H. destruct (is_dec c) eqn:E.
    + destruct (int_digits s true) as [r'|] eqn:E'; [|discriminate]. injection H as <-.
      destruct (IH _ _ E') as (first & runs & H1 & _ & H2 & H3 & H4). exists (c :: first), runs.
      split; [now constructor|]. split; [discriminate|]. split; [exact H2|]. split; [|now rewrite H4].
      rewrite H3. destruct runs; reflexivity.
    + destruct (Ascii.eqb_spec c "_") as [->|]; [|discriminate]. cbn [andb] in H. destruct b; [|discriminate].
      destruct s as [|d s']; [discriminate|]. destruct (is_dec d); [|discriminate].
      destruct (IH _ _ H) as (first & runs & H1 & H0 & H2 & H3 & H4). exists [], (first :: runs).
      split; [constructor|]. split; [discriminate|]. split; [constructor; [split; [now apply H0|exact H1]|exact H2]|].
      split; [now rewrite H3|now rewrite H4].
Qed.
Lemma int_digits_run first : decs first -> forall b rest r, (b = true \/ first <> []) ->
  int_digits rest true = Some r -> int_digits (first ++ rest) b = Some (first ++ r).
Proof.
  induction 1 as [|c f Hc Hf IH]; intros b rest r Hb H.
  - destruct Hb as [->|]; [exact H|congruence].
  - cbn [app int_digits]. rewrite Hc. rewrite (IH true rest r); [reflexivity|now left|exact H].
Qed.
Lemma int_digits_join runs : forall first b, decs first -> (b = true \/ first <> []) -> Forall digit_run runs ->
  int_digits (join $"_" (first :: runs)) b = Some (concat (first :: runs)).
Proof.
  induction runs as [|r runs IH]; intros first b Hf Hb HF.
  - change (join $"_" [first]) with first. cbn [concat]. rewrite <- (app_nil_r first) at 1. apply int_digits_run; auto.
  - inversion HF as [|? ? [Hne Hr] HF']; subst. change (join $"_" (first :: r :: runs)) with (first ++ $"_" ++ join $"_" (r :: runs)).
    change (concat (first :: r :: runs)) with (first ++ concat (r :: runs)). apply int_digits_run; auto.
    destruct r as [|c r]; [congruence|]. inversion Hr as [|? ? Hc Hr']; subst.
    assert (E : exists t, join $"_" ((c :: r) :: runs) = c :: t) by (destruct runs; eexists; reflexivity).
    destruct E as [t E].
    change (int_digits ($"_" ++ join $"_" ((c :: r) :: runs)) true) with
      (match join $"_" ((c :: r) :: runs) with d :: _ => if is_dec d then int_digits (join $"_" ((c :: r) :: runs)) false else None | [] => None end).
    rewrite E at 1. rewrite Hc. apply IH; [exact Hr|right; discriminate|exact HF'].
Qed.
Lemma digits_val_run s : forall a, Z.of_N (digits_val s a) = fold_left (fun a c => (10 * a + Z.of_N (code c - 48))%Z) s (Z.of_N a).
Proof.
  induction s as [|c s IH]; intros a; [reflexivity|]. cbn [digits_val fold_left]. rewrite IH. f_equal. unfold digit_val.
  rewrite N2Z.inj_add, N2Z.inj_mul. reflexivity.
Qed.
Lemma decs_tight s : decs s -> tight s.
Proof. intros H. destruct s; [exact I|]. inversion H; subst. now apply dec_not_space. Qed.
Lemma join_last_digit runs : runs <> [] -> Forall digit_run runs -> exists t c, join $"_" runs = t ++ [c] /\ is_dec c = true.
Proof.
  induction runs as [|r runs IH]; [congruence|]. intros _ H. inversion H as [|? ? [Hne Hr] HF]; subst.
  destruct runs as [|r2 runs].
  - change (join $"_" [r]) with r. destruct (exists_last Hne) as (t & c & ->). exists t, c. split; [reflexivity|].
    unfold digit_run in *. apply Forall_app in Hr as [_ Hr]. now inversion Hr.
  - change (join $"_" (r :: r2 :: runs)) with (r ++ $"_" ++ join $"_" (r2 :: runs)).
    destruct IH as (t & c & E & Hc); [discriminate|exact HF|]. rewrite E. exists (r ++ $"_" ++ t), c. split; [now rewrite !app_assoc|exact Hc].
Qed.

Theorem int_spec s z : py_int s = Some z <-> int_text s z.
Proof.
  split.
  - intros H. destruct (strip_split s) as (b1 & b2 & E & H1 & H2). unfold py_int in H. destruct (strip s) as [|c t] eqn:Es; [discriminate|].
    destruct (Ascii.eqb_spec c "-") as [->|N1]; [|destruct (Ascii.eqb_spec c "+") as [->|N2]].
    + destruct (int_digits t false) as [d|] eqn:Ed; [|discriminate]. destruct (int_digits_split _ _ _ Ed) as (f & runs & H3 & H4 & H5 & H6 & H7).
      injection H as <-. exists b1, $"-", (f :: runs), b2. rewrite E. split; [now rewrite <- H6|].
      do 2 (split; [assumption|]). split; [discriminate|]. split; [constructor; [split; auto|exact H5]|]. right. split; [reflexivity|].
      rewrite digits_val_run, H7. reflexivity.
    + destruct (int_digits t false) as [d|] eqn:Ed; [|discriminate]. destruct (int_digits_split _ _ _ Ed) as (f & runs & H3 & H4 & H5 & H6 & H7).
      injection H as <-. exists b1, $"+", (f :: runs), b2. rewrite E. split; [now rewrite <- H6|].
      do 2 (split; [assumption|]). split; [discriminate|]. split; [constructor; [split; auto|exact H5]|]. left. split; [now right|].
      rewrite digits_val_run, H7. reflexivity.
    + destruct (int_digits (c :: t) false) as [d|] eqn:Ed; [|discriminate]. destruct (int_digits_split _ _ _ Ed) as (f & runs & H3 & H4 & H5 & H6 & H7).
      injection H as <-. exists b1, [], (f :: runs), b2. rewrite E. split; [now rewrite <- H6|].
      do 2 (split; [assumption|]). split; [discriminate|]. split; [constructor; [split; auto|exact H5]|]. left. split; [now left|].
      rewrite digits_val_run, H7. reflexivity.
  - intros (b1 & sign & runs & b2 & -> & H1 & H2 & Hne & HF & HS).
    destruct (join_last_digit _ Hne HF) as (t & c & Et & Hc).
    destruct runs as [|f runs]; [congruence|]. inversion HF as [|? ? [Hf0 Hf] HF']; subst.
    destruct f as [|x f]; [congruence|]. inversion Hf as [|? ? Hx Hf']; subst.
    assert (Ej : exists q, join $"_" ((x :: f) :: runs) = x :: q) by (destruct runs; eexists; reflexivity). destruct Ej as [q Eq].
    assert (HI : int_digits (join $"_" ((x :: f) :: runs)) false = Some (concat ((x :: f) :: runs)))
      by (apply int_digits_join; [exact Hf|right; discriminate|exact HF']).
    assert (Ev : Z.of_N (digits_val (concat ((x :: f) :: runs)) 0) = run_value (concat ((x :: f) :: runs))) by apply digits_val_run.
    assert (Hst : strip (b1 ++ sign ++ join $"_" ((x :: f) :: runs) ++ b2) = sign ++ join $"_" ((x :: f) :: runs)).
    { rewrite (app_assoc sign). apply strip_pad; [exact H1|exact H2|rewrite Eq; destruct sign; discriminate| |].
      - destruct HS as [[[->| ->] _]|[-> _]]; [rewrite Eq; now apply dec_not_space|reflexivity|reflexivity].
      - rewrite Et, app_assoc, rev_app_distr. now apply dec_not_space. }
    unfold py_int. rewrite Hst. destruct HS as [[[->| ->] ->]|[-> ->]].
    + cbn [app]. rewrite Eq. rewrite Eq in HI. rewrite HI, Ev.
      destruct (Ascii.eqb_spec x "-") as [->|]; [discriminate Hx|]. destruct (Ascii.eqb_spec x "+") as [->|]; [discriminate Hx|]. reflexivity.
    + change ($"+" ++ join $"_" ((x :: f) :: runs)) with ("+"%char :: join $"_" ((x :: f) :: runs)).
      change (Ascii.eqb "+" "-") with false. change (Ascii.eqb "+" "+") with true. cbv iota. now rewrite HI, Ev.
    + change ($"-" ++ join $"_" ((x :: f) :: runs)) with ("-"%char :: join $"_" ((x :: f) :: runs)).
      change (Ascii.eqb "-" "-") with true. cbv iota. now rewrite HI, Ev.
Qed.
