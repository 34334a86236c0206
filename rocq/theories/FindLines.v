(** * FindLines: searching a text line by line. *)
From Coq Require Import Lia.
From Verif Require Import PyBase DictFacts StrFacts Regex SpecRegex RegexFacts Template FormRegex SpecLine SpecForm FindFacts.
Local Open Scope string_scope.
Local Open Scope list_scope.

(** lines as they stand in the text that is searched: each after a newline, a newline at the end *)
Definition stacked (ls : list str) : str := flat_map (fun l => nl :: l) ls ++ [nl].
Lemma stacked_cons l ls : stacked (l :: ls) = nl :: l ++ stacked ls.
Proof. unfold stacked. cbn [flat_map app]. now rewrite <- app_assoc. Qed.
Lemma stacked_nl ls : exists u, stacked ls = nl :: u.
Proof. destruct ls as [|l ls]; [now exists []|]. rewrite stacked_cons. eauto. Qed.
Lemma stacked_split d : stacked (split [nl] d) = nl :: d ++ [nl].
Proof.
  rewrite <- (join_split [nl] d ltac:(discriminate)) at 2.
  assert (G : forall ls, ls <> [] -> stacked ls = nl :: join [nl] ls ++ [nl]); [|apply G, split_ne].
  induction ls as [|l [|l' ls] IH]; intros H; [congruence|unfold stacked; cbn [flat_map join app]; now rewrite app_nil_r|]. rewrite stacked_cons, IH by discriminate. cbn [join]. now rewrite <- !app_assoc.
Qed.

Section F.
Variable ast : re.
(** a match begins at a newline and stays on its line *)
Hypothesis Hast : forall s s' c, rmatch ast s = Some (s', c) -> exists w, s = nl :: w ++ s' /\ lacks nl w /\ (exists u, s' = nl :: u \/ s' = chr 13 :: nl :: u).

Definition match_at (pos : nat) (s s' : str) (c : caps) : rmatch_t :=
  {| m_start := pos; m_end := pos + (length s - length s'); m_text := firstn (length s - length s') s; m_caps := c |}.
Fixpoint line_matches (ls : list str) (pos : nat) : list rmatch_t :=
  match ls with
  | [] => []
  | l :: t =>
      match rmatch ast (nl :: l ++ stacked t) with
      | Some (s', c) => [match_at pos (nl :: l ++ stacked t) s' c]
      | None => []
      end ++ line_matches t (S (pos + length l))
  end.
Lemma skip_line u : forall f s pos, lacks nl u -> length (u ++ s) <= f -> finditer_go (S f) ast (u ++ s) pos = finditer_go (S (f - length u)) ast s (pos + length u).
Proof.
  induction u as [|x u IH]; intros f s pos Hu Hf; [cbn [app length]; now rewrite Nat.sub_0_r, Nat.add_0_r|].
  cbn [app length] in Hf |- *. destruct f as [|f]; [lia|]. change (finditer_go (S (S f)) ast (x :: u ++ s) pos) with
    (match rmatch ast (x :: u ++ s) with
     | Some (s', c) => let n := length (x :: u ++ s) - length s' in let m := {| m_start := pos; m_end := pos + n; m_text := firstn n (x :: u ++ s); m_caps := c |} in
         match n with O => m :: finditer_go (S f) ast (u ++ s) (S pos) | _ => m :: finditer_go (S f) ast s' (pos + n) end
     | None => finditer_go (S f) ast (u ++ s) (S pos) end).
  destruct (rmatch ast (x :: u ++ s)) as [[s' c]|] eqn:E.
  - apply Hast in E as (w & E & _). exfalso. apply Hu. left. congruence.
  - rewrite IH by (try lia; intros K; apply Hu; now right). cbn [Nat.sub]. f_equal. lia.
Qed.
Lemma go_enough : forall f f' s pos, length s <= f -> length s <= f' -> finditer_go (S f) ast s pos = finditer_go (S f') ast s pos.
Proof.
  induction f as [f IH] using lt_wf_ind. intros f' s pos Hf Hf'. cbn [finditer_go]. destruct (rmatch ast s) as [[s' c]|] eqn:E.
  - apply Hast in E as (w & -> & _). cbn [length] in *. rewrite app_length in *. replace (S (length w + length s') - length s') with (S (length w)) by lia.
    f_equal. destruct f as [|f]; [lia|]. destruct f' as [|f']; [lia|]. apply IH; lia.
  - destruct s as [|x s]; [reflexivity|]. cbn [length] in *. destruct f as [|f]; [lia|]. destruct f' as [|f']; [lia|]. apply IH; lia.
Qed.
Theorem find_lines : forall ls f pos, Forall (lacks nl) ls -> length (stacked ls) <= f -> finditer_go (S f) ast (stacked ls) pos = line_matches ls pos.
Proof.
  induction ls as [|l ls IH]; intros f pos Hl Hf.
  - cbn [line_matches]. unfold stacked in *. cbn [flat_map app length] in *. cbn [finditer_go]. destruct (rmatch ast [nl]) as [[s' c]|] eqn:E.
    + exfalso. apply Hast in E as (w & E & _ & u & [->| ->]); (apply (Logic.f_equal (@length _)) in E; rewrite ?app_length in E; cbn [length] in E; rewrite ?app_length in E; cbn [length] in E; lia).
    + destruct f as [|f]; [lia|]. cbn [finditer_go]. destruct (rmatch ast []) as [[s' c]|] eqn:E2; [|reflexivity]. apply Hast in E2 as (w & E2 & _). discriminate.
  - inversion Hl as [|? ? Hl0 Hl']; subst. rewrite stacked_cons in *. cbn [length] in Hf. rewrite app_length in Hf. cbn [line_matches].
    set (st := stacked ls) in *. cbn [finditer_go]. destruct (rmatch ast (nl :: l ++ st)) as [[s' c]|] eqn:E.
    + cbv zeta. pose proof E as E0. apply Hast in E as (w & E & Hw & u & Hs').
      assert (El : exists v, l = w ++ v /\ s' = v ++ st /\ (v = [] \/ v = [chr 13])).
      { injection E as E. destruct (stacked_nl ls) as (st' & Est). fold st in Est. rewrite Est in *. clear - E Hw Hl0 Hs'.
        assert (G : forall l w, lacks nl l -> lacks nl w -> l ++ nl :: st' = w ++ s' -> exists v, l = w ++ v /\ s' = v ++ nl :: st' /\ (v = [] \/ v = [chr 13])).
        { clear l w E Hl0 Hw. induction l as [|x l IH]; intros w Hl Hw E.
          - destruct w as [|y w]; [exists []; cbn in E; auto|]. cbn [app] in E. exfalso. apply Hw. left. congruence.
          - destruct w as [|y w].
            + cbn [app] in E. destruct Hs' as [Hs'|Hs']; [exfalso; apply Hl; left; congruence|]. rewrite <- E in Hs'. assert (x = chr 13) as -> by congruence.
              assert (Hs2 : l ++ nl :: st' = nl :: u) by congruence. destruct l as [|y l]; [exists [chr 13]; auto|]. exfalso. apply Hl. right. left. cbn [app] in Hs2. congruence.
            + cbn [app] in E. injection E as -> E. destruct (IH w) as (v & -> & -> & Hv); [intros K; apply Hl; now right|intros K; apply Hw; now right|exact E|]. exists v. auto. }
        now apply G. }
      destruct El as (v & -> & -> & Hv). cbn [length]. rewrite !app_length. replace (S (length w + length v + length st) - (length v + length st)) with (S (length w)) by lia.
      rewrite app_length in Hf. cbn [app]. f_equal.
      * unfold match_at. cbn [length]. rewrite !app_length. replace (S (length w + length v + length st) - (length v + length st)) with (S (length w)) by lia. reflexivity.
      * destruct f as [|f]; [lia|]. rewrite skip_line.
        -- rewrite (go_enough _ f) by lia. rewrite IH by (try assumption; lia). f_equal. lia.
        -- destruct Hv as [->| ->]; [intros []|]. intros [K|[]]. discriminate K.
        -- rewrite app_length. lia.
    + cbn [app]. destruct f as [|f]; [lia|]. rewrite skip_line by (try assumption; rewrite app_length; lia). rewrite (go_enough _ f) by lia. rewrite IH by (try assumption; lia).
      f_equal; lia.
Qed.
Corollary finditer_stacked ls : Forall (lacks nl) ls -> finditer ast (stacked ls) = line_matches ls 0.
Proof. intros H. unfold finditer. apply find_lines; [exact H|lia]. Qed.
End F.
