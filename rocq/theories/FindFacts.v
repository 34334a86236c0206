(** * FindFacts: searching a text for all matches *)
From Coq Require Import Sorting.Sorted.
From Verif Require Import PyBase DictFacts Regex SpecRegex RegexFacts Template FormRegex SpecLine SpecForm StrFacts ReadFacts LitFacts LineFacts LineRegex.
Local Open Scope string_scope.
Local Open Scope list_scope.

Lemma finditer_all r : (forall s s' c, rmatch r s = Some (s', c) -> exists w, s = w ++ s' /\ w <> []) ->
  forall n s pos, length s < n ->
  (forall m, In m (finditer_go n r s pos) -> exists a s', s = a ++ m_text m ++ s' /\ m_start m = pos + length a /\ m_end m = m_start m + length (m_text m) /\
                                                          m_text m <> [] /\ rmatch r (m_text m ++ s') = Some (s', m_caps m)) /\
  (forall a b, s = a ++ b -> rmatch r b <> None -> exists m, In m (finditer_go n r s pos) /\ m_start m <= pos + length a < m_end m) /\
  StronglySorted (fun m m' => m_end m <= m_start m') (finditer_go n r s pos) /\ Forall (fun m => pos <= m_start m) (finditer_go n r s pos).
Proof.
  intros Hne. induction n as [|n IH]; intros s pos Hl; [lia|]. cbn [finditer_go]. destruct (rmatch r s) as [[s' c]|] eqn:E.
  - destruct (Hne s s' c E) as (w & -> & Hw). rewrite app_length. replace (length w + length s' - length s') with (length w) by lia.
    destruct (length w) as [|k] eqn:Ek; [destruct w; [congruence|discriminate]|]. rewrite <- Ek.
    assert (Ef : firstn (length w) (w ++ s') = w) by (now rewrite firstn_app, Nat.sub_diag, firstn_all, firstn_O, app_nil_r). rewrite Ef.
    set (m0 := {| m_start := pos; m_end := pos + length w; m_text := w; m_caps := c |}).
    rewrite app_length in Hl. destruct (IH s' (pos + length w) ltac:(lia)) as (I1 & I2 & I3 & I4). split; [|split; [|split]].
    + intros m [<-|Hm].
      * exists [], s'. cbn [m0 m_text m_start m_end m_caps app length]. rewrite Nat.add_0_r. auto.
      * destruct (I1 m Hm) as (a & u & Es & Ea & Ee & Et & Er). exists (w ++ a), u. split; [rewrite Es at 1; now rewrite <- app_assoc|]. split; [rewrite app_length; lia|]. auto.
    + intros a b Eab Hr. destruct (Nat.lt_ge_cases (length a) (length w)) as [Hlt|Hge].
      * exists m0. split; [now left|]. cbn [m0 m_start m_end]. lia.
      * assert (exists a', a = w ++ a') as [a' ->].
        { clear - Eab Hge. revert a Eab Hge. induction w as [|x w IHw]; intros a Eab Hge; [now exists a|]. destruct a as [|y a]; [cbn in Hge; lia|].
          cbn [app length] in *. injection Eab as -> Eab. destruct (IHw a Eab ltac:(lia)) as [a' ->]. now exists a'. }
        rewrite <- app_assoc in Eab. apply app_inv_head in Eab. destruct (I2 a' b Eab Hr) as (m & Hm & Hs). exists m. split; [now right|]. rewrite app_length. lia.
    + constructor; [exact I3|]. eapply Forall_impl; [|exact I4]. intros m Hm. exact Hm.
    + constructor; [cbn; lia|]. eapply Forall_impl; [|exact I4]. intros m Hm. cbv beta in Hm. lia.
  - destruct s as [|x t].
    + split; [intros m []|]. split; [|split; constructor]. intros a b Eab Hr. symmetry in Eab. apply app_eq_nil in Eab as [-> ->]. congruence.
    + cbn [length] in Hl. destruct (IH t (S pos) ltac:(lia)) as (I1 & I2 & I3 & I4). split; [|split; [|split]].
      * intros m Hm. destruct (I1 m Hm) as (a & u & Es & Ea & Ee & Et & Er). exists (x :: a), u. split; [cbn [app]; now rewrite <- Es|]. split; [cbn [length]; lia|]. auto.
      * intros a b Eab Hr. destruct a as [|y a]; [cbn [app] in Eab; subst b; congruence|]. cbn [app] in Eab. injection Eab as <- Eab.
        destruct (I2 a b Eab Hr) as (m & Hm & Hs). exists m. split; [exact Hm|]. cbn [length]. lia.
      * exact I3.
      * eapply Forall_impl; [|exact I4]. intros m Hm. cbv beta in Hm. lia.
Qed.

(** ** a line's pieces stay on the line *)
Definition one_line (q : list piece) : Prop :=
  Forall (fun p => match p with
                   | PLit l => lacks nl l
                   | PVar _ rs => forall r, In r rs -> forall w s, rel r (w ++ s) [] s [] -> lacks nl w
                   end) q.
Lemma norm_nl xs xd s : In nl s <-> In nl (norm xs xd s).
Proof.
  assert (H : forall n s, length s <= n -> In nl s <-> In nl (norm xs xd s)); [|now apply (H (length s))]. clear s.
  assert (Hnl : run_of xs xd nl = None). { unfold run_of. cbn. now rewrite !Bool.andb_false_r. }
  induction n as [|n IH]; intros s Hl; (destruct s as [|c t]; [reflexivity|]); [cbn in Hl; lia|]. cbn [length] in Hl.
  destruct (run_of xs xd c) as [r|] eqn:Er.
  - rewrite (norm_run xs xd c t r Er). set (p := fun d => _). pose proof (lstrip_len p t). cbn [In]. rewrite <- IH by lia.
    assert (Hr : nl <> r). { intros <-. apply run_rep in Er. congruence. }
    assert (Hc : nl <> c) by (intros <-; congruence).
    destruct (lstrip_split p t) as (w & E & Hw). rewrite E at 1. rewrite in_app_iff.
    assert (~ In nl w). { rewrite Forall_forall in Hw. intros K. apply Hw in K. unfold p in K. apply same_run_eq in K. congruence. }
    split; [intros [K|[K|K]]; [congruence|tauto|now right]|intros [K|K]; [congruence|right; now right]].
  - rewrite (norm_plain xs xd c t Er). cbn [In]. rewrite <- IH by lia. reflexivity.
Qed.
Lemma reads_text xs xd q s s' c : one_line q -> reads xs xd q s s' c -> exists w, s = w ++ s' /\ lacks nl w.
Proof.
  intros H1 H. induction H as [s|l ps t s s' c Ht Hr IH|n alts r ps w s s' c Hi Hw Hr IH].
  - exists []. split; [reflexivity|intros []].
  - inversion H1 as [|? ? Hl Hps]; subst. destruct (IH Hps) as (w & -> & Hw). exists (t ++ w). split; [now rewrite app_assoc|].
    intros K. apply in_app_or in K as [K|K]; [|now apply Hw]. apply (norm_nl xs xd) in K. unfold same_text in Ht. rewrite Ht in K. apply (norm_nl xs xd) in K. now apply Hl.
  - inversion H1 as [|? ? Hl Hps]; subst. destruct (IH Hps) as (u & -> & Hu). exists (w ++ u). split; [now rewrite app_assoc|].
    intros K. apply in_app_or in K as [K|K]; [|now apply Hu]. now apply (Hl r Hi w _ Hw).
Qed.
Lemma reads_line_text xs xd indent q s s' c : lacks nl indent -> one_line q -> reads_line xs xd indent q s s' c -> exists w, s = nl :: w ++ s' /\ lacks nl w.
Proof.
  intros Hi Hq (s1 & b & -> & H & Hb & _). apply (reads_text _ _ _ _ _ _ Hq) in H as (w & -> & Hw). exists (indent ++ w ++ b). split; [now rewrite <- !app_assoc|].
  intros K. apply in_app_or in K as [K|K]; [now apply Hi|]. apply in_app_or in K as [K|K]; [now apply Hw|]. rewrite Forall_forall in Hb. now apply Hb in K.
Qed.

(** searching the text finds the lines that read, each once, in order *)
Theorem finditer_lines ast xs xd indent q : lacks nl indent -> one_line q ->
  (forall s s' c, rel ast s [] s' c <-> reads_line xs xd indent q s s' c) -> forall text,
  (forall m, In m (finditer ast text) -> m_end m <= length text /\ reads_line xs xd indent q (skipn (m_start m) text) (skipn (m_end m) text) (m_caps m)) /\
  (forall a s s' c, text = a ++ s -> reads_line xs xd indent q s s' c -> exists m, In m (finditer ast text) /\ m_start m = length a) /\
  StronglySorted (fun m m' => m_end m <= m_start m') (finditer ast text).
Proof.
  intros Hi Hq Hast text.
  assert (Hne : forall s s' c, rmatch ast s = Some (s', c) -> exists w, s = w ++ s' /\ w <> []).
  { intros s s' c H. apply rmatch_sound, Hast in H. apply reads_line_text in H as (w & -> & _); [|assumption..]. exists (nl :: w). split; [reflexivity|discriminate]. }
  destruct (finditer_all ast Hne (S (length text)) text 0 ltac:(lia)) as (I1 & I2 & I3 & _). fold (finditer ast text) in *. split; [|split].
  - intros m Hm. destruct (I1 m Hm) as (a & s' & E & Ea & Ee & Et & Er). cbn [Nat.add] in Ea. rewrite Ee, Ea.
    rewrite E. split; [rewrite !app_length; lia|]. rewrite skipn_app_exact. rewrite <- app_length, app_assoc, skipn_app_exact. now apply Hast, rmatch_sound.
  - intros a s s' c E H. assert (Hr : rmatch ast s <> None). { apply Hast in H. apply rmatch_complete in H as (s1 & c1 & ->). discriminate. }
    destruct (I2 a s E Hr) as (m & Hm & Hs). cbn [Nat.add] in Hs. exists m. split; [exact Hm|].
    destruct (I1 m Hm) as (a' & u & E' & Ea & Ee & Et & Er). cbn [Nat.add] in Ea. apply rmatch_sound, Hast in Er.
    apply reads_line_text in Er as (w & Ew & Hw); [|assumption..]. change (nl :: w ++ u) with ((nl :: w) ++ u) in Ew. apply app_inv_tail in Ew. rewrite Ew in *.
    apply reads_line_text in H as (w2 & -> & _); [|assumption..].
    destruct (Nat.eq_dec (m_start m) (length a)) as [|Hd]; [assumption|]. exfalso. apply Hw.
    assert (exists d, a = a' ++ d) as [d ->].
    { assert (Hle : length a' <= length a) by lia. rewrite E in E'. clear - E' Hle. revert a E' Hle. induction a' as [|x a' IH]; intros a E' Hle; [now exists a|]. destruct a as [|y a]; [cbn in Hle; lia|].
      cbn [app length] in *. injection E' as -> E'. destruct (IH a E' ltac:(lia)) as [d ->]. now exists d. }
    rewrite E in E'. rewrite <- app_assoc in E'. apply app_inv_head in E'. rewrite app_length in Hs, Hd. destruct d as [|x d]; [cbn in Hd; lia|].
    cbn [app length] in *. injection E' as -> E'.
    assert (Hld : length d < length w) by lia. clear - E' Hld. revert w E' Hld. induction d as [|x d IH]; intros w E' Hld; (destruct w as [|y w]; [cbn in Hld; lia|]); cbn [app length] in *; injection E' as -> E'.
    + now left.
    + right. apply (IH w E'). lia.
  - exact I3.
Qed.
