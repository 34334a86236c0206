(** * LoaderFacts: proofs about Loaders.v. *)
From Verif Require Import PyBase DictFacts StrFacts Loaders SpecCsv.
Local Open Scope string_scope.
Local Open Scope list_scope.

Lemma is_break_iff c : is_break c = true <-> line_break c.
Proof.
  unfold is_break, line_break. rewrite existsb_exists. split.
  - intros (x & Hx & E). apply N.eqb_eq in E. now rewrite E.
  - intros H. exists (code c). split; [exact H|apply N.eqb_refl].
Qed.
Lemma no_break c : ~ line_break c -> is_break c = false /\ N.eqb (code c) 13 = false.
Proof.
  intros H. split.
  - apply not_true_is_false. now rewrite is_break_iff.
  - apply N.eqb_neq. intros E. apply H. unfold line_break. rewrite E. cbn. tauto.
Qed.
Lemma lines_one l s : one_line l -> forall cur, lines_from (l ++ s) cur = lines_from s (cur ++ l).
Proof.
  induction 1 as [|c l H _ IH]; intros cur; cbn [app]; [now rewrite app_nil_r|]. cbn [lines_from].
  destruct (no_break c H) as [-> ->]. rewrite IH, <- app_assoc. reflexivity.
Qed.
Lemma lines_nl s cur : lines_from (nl :: s) cur = cur :: lines_from s [].
Proof. reflexivity. Qed.
Lemma laid_out_head ls t : Forall one_line ls -> Forall (fun l => l <> []) ls -> laid_out ls t -> t = [] \/ exists d t', t = d :: t' /\ ~ line_break d.
Proof.
  intros H1 H2 H. destruct H as [|l|l e ls t He H]; [now left| |]; inversion H1 as [|? ? O1 _]; inversion H2 as [|? ? N1 _]; subst;
    (destruct l as [|d l]; [congruence|]); right; inversion O1; subst; eexists; eexists; (split; [reflexivity|assumption]).
Qed.
Lemma all_lines_laid ls t : Forall one_line ls -> Forall (fun l => l <> []) ls -> laid_out ls t -> all_lines t = ls.
Proof.
  unfold all_lines. intros H1 H2 H. induction H as [|l|l e ls t He H IH]; [reflexivity| |]; inversion H1 as [|? ? O1 O2]; inversion H2 as [|? ? N1 N2]; subst.
  - rewrite <- (app_nil_r l) at 1. rewrite lines_one by exact O1. cbn [app lines_from]. destruct l; [congruence|reflexivity].
  - rewrite lines_one by exact O1. cbn [app]. specialize (IH O2 N2). destruct He as [c Hc|].
    + cbn [app lines_from]. destruct (N.eqb (code c) 13) eqn:E.
      * f_equal. destruct (laid_out_head _ _ O2 N2 H) as [-> |(d & t' & -> & Hd)]; [exact IH|].
        assert (N.eqb (code d) 10 = false) as ->; [|exact IH]. apply N.eqb_neq. intros K. apply Hd. unfold line_break. rewrite K. cbn. tauto.
      * assert (is_break c = true) as -> by now apply is_break_iff. now rewrite IH.
    + change (lines_from ([Ascii.ascii_of_N 13; Ascii.ascii_of_N 10] ++ t) l) with (l :: lines_from t []). now rewrite IH.
Qed.
Lemma join_laid ls : laid_out ls (join [nl] ls).
Proof.
  induction ls as [|l [|l2 ls] IH]; [constructor|constructor|]. change (join [nl] (l :: l2 :: ls)) with (l ++ [nl] ++ join [nl] (l2 :: ls)).
  constructor; [|exact IH]. constructor. unfold line_break. cbn. tauto.
Qed.

(** ** one row *)
Lemma plain_chars c : ~ In quote_char c -> ~ In comma_char c -> forall f fs, fold_left csv_char c (mkR InField f fs) = mkR InField (f ++ c) fs.
Proof.
  induction c as [|a c IH]; intros Hq Hc f fs; cbn [fold_left]; [now rewrite app_nil_r|].
  unfold csv_char at 2. cbn [cst]. assert (Ascii.eqb a comma = false) as ->.
  { apply Ascii.eqb_neq. intros ->. apply Hc. now left. }
  unfold cadd. cbn [cfield cfields]. rewrite IH; [now rewrite <- app_assoc|intros K; apply Hq; now right|intros K; apply Hc; now right].
Qed.
Lemma quoted_chars c : forall f fs, fold_left csv_char (doubled c) (mkR InQuoted f fs) = mkR InQuoted (f ++ c) fs.
Proof.
  induction c as [|a c IH]; intros f fs; cbn [doubled]; [cbn; now rewrite app_nil_r|]. destruct (Ascii.eqb a quote_char) eqn:E; cbn [fold_left].
  - apply Ascii.eqb_eq in E as ->. unfold csv_char at 3. cbn [cst]. change (Ascii.eqb quote_char dquote) with true. cbn iota. cbn [cfield cfields].
    unfold csv_char at 2. cbn [cst]. change (Ascii.eqb quote_char dquote) with true. cbn iota. unfold cadd. cbn [cfield cfields]. rewrite IH, <- app_assoc. reflexivity.
  - unfold csv_char at 2. cbn [cst]. change dquote with quote_char. rewrite E. unfold cadd. cbn [cfield cfields]. rewrite IH, <- app_assoc. reflexivity.
Qed.
(** after a cell, before what separates it from the next *)
Lemma written_cell c t : written c t -> forall st fs, (st = StartField \/ (st = StartRecord /\ t <> [])) ->
  exists st', fold_left csv_char t (mkR st [] fs) = mkR st' c fs /\ (st' = InField \/ st' = QuoteInQuoted \/ st' = StartField).
Proof.
  intros H st fs Hst. destruct H as [c Hl Hq Hc|c Hl].
  - destruct c as [|a c]; [destruct Hst as [-> |[_ K]]; [|congruence]; exists StartField; split; [reflexivity|tauto]|].
    exists InField. split; [|now left]. cbn [fold_left].
    assert (csv_char (mkR st [] fs) a = mkR InField [a] fs) as ->.
    { assert (E1 : Ascii.eqb a dquote = false) by (apply Ascii.eqb_neq; intros ->; apply Hq; now left).
      assert (E2 : Ascii.eqb a comma = false) by (apply Ascii.eqb_neq; intros ->; apply Hc; now left).
      unfold csv_char, start_field. destruct Hst as [-> |[-> _]]; cbn [cst]; rewrite E1, E2; reflexivity. }
    rewrite plain_chars; [reflexivity|intros K; apply Hq; now right|intros K; apply Hc; now right].
  - exists QuoteInQuoted. split; [|tauto]. cbn [fold_left]. assert (csv_char (mkR st [] fs) quote_char = mkR InQuoted [] fs) as ->.
    { unfold csv_char, start_field. destruct Hst as [-> |[-> _]]; reflexivity. }
    rewrite fold_left_app, quoted_chars. reflexivity.
Qed.
Lemma row_read cs t : row_text cs t -> forall st fs, (st = StartField \/ (st = StartRecord /\ t <> [])) ->
  csv_line_in (mkR st [] fs) t = mkR StartRecord [] (fs ++ cs).
Proof.
  unfold csv_line_in. intros H. induction H as [c t H|c t cs ts H _ IH]; intros st fs Hst.
  - destruct (written_cell c t H st fs Hst) as (st' & -> & [-> |[-> | ->]]); reflexivity.
  - rewrite fold_left_app. cbn [fold_left]. destruct t as [|a t].
    + inversion H; subst. cbn [fold_left]. assert (csv_char (mkR st [] fs) comma_char = mkR StartField [] (fs ++ [[]])) as ->.
      { destruct Hst as [-> |[-> _]]; reflexivity. }
      rewrite IH by now left. now rewrite <- app_assoc.
    + destruct (written_cell c (a :: t) H st fs) as (st' & -> & Hst'); [destruct Hst as [K|[K _]]; [now left|right; split; [exact K|discriminate]]|].
      assert (csv_char (mkR st' c fs) comma_char = mkR StartField [] (fs ++ [c])) as -> by (destruct Hst' as [-> |[-> | ->]]; reflexivity).
      rewrite IH by now left. now rewrite <- app_assoc.
Qed.
Lemma doubled_In x c : In x (doubled c) -> In x c.
Proof.
  induction c as [|a c IH]; cbn [doubled]; [intros []|]. destruct (Ascii.eqb a quote_char); cbn [In]; intros H; [destruct H as [H|[H|H]]|destruct H as [H|H]]; auto.
Qed.
Lemma quote_one_line : ~ line_break quote_char.
Proof. intros H. vm_compute in H. repeat (destruct H as [H|H]; [discriminate|]). destruct H. Qed.
Lemma comma_one_line : ~ line_break comma_char.
Proof. intros H. vm_compute in H. repeat (destruct H as [H|H]; [discriminate|]). destruct H. Qed.
Lemma written_one_line c t : written c t -> one_line t.
Proof.
  intros [c' H _ _|c' H]; [exact H|]. unfold one_line in *. constructor; [exact quote_one_line|]. apply Forall_app. split.
  - rewrite Forall_forall in *. intros x Hx. apply H. now apply doubled_In.
  - repeat constructor. exact quote_one_line.
Qed.
Lemma row_one_line cs t : row_text cs t -> one_line t.
Proof.
  induction 1 as [c t H|c t cs ts H _ IH]; [now apply (written_one_line c)|]. apply Forall_app. split; [now apply (written_one_line c)|].
  constructor; [exact comma_one_line|exact IH].
Qed.
Lemma row_ne cs t : row_text cs t -> cs <> [].
Proof. intros H. inversion H; discriminate. Qed.

Theorem reader_rows rows text : table_text rows text -> csv_reader text = rows.
Proof.
  intros (lines & H & Hne & Ht). unfold csv_reader. assert (all_lines text = lines) as ->.
  { assert (Forall one_line lines) by (clear - H; induction H as [|r l rs ls Hr _ IH]; constructor; [eapply row_one_line, Hr|exact IH]).
    now apply all_lines_laid. }
  clear Ht. induction H as [|r l rs ls Hr _ IH]; [reflexivity|]. inversion Hne as [|? ? N1 N2]; subst. cbn [csv_rows].
  rewrite (row_read r l Hr) by (right; now split). cbn [cst app]. cbn [cfields]. now rewrite IH.
Qed.

(** ** records *)
Lemma nth_in {A} (l : list A) i x : nth_error l i = Some x -> In x l.
Proof. apply nth_error_In. Qed.
Lemma csv_record_ok hs : forall row acc, NoDup hs -> length row <= length hs -> (forall h, In h hs -> dget acc (KS h) = None) -> dwf acc ->
  exists rec, csv_record hs row acc = Ok rec /\ dwf rec /\
    forall k v, dget rec k = Some v <-> dget acc k = Some v \/ exists h c, k = KS h /\ v = VStr c /\ cell_at hs row h c.
Proof.
  induction hs as [|h hs IH]; intros row acc Hn Hl Ha Hw.
  - destruct row; [|cbn in Hl; lia]. exists acc. split; [reflexivity|]. split; [exact Hw|]. intros k v. split; [now left|].
    intros [K|(h & c & _ & _ & i & K & _)]; [exact K|destruct i; discriminate].
  - destruct row as [|c row].
    { exists acc. split; [reflexivity|]. split; [exact Hw|]. intros k v. split; [now left|]. intros [K|(x & c & _ & _ & i & _ & K)]; [exact K|destruct i; discriminate]. }
    inversion Hn as [|? ? Hh Hn']; subst. cbn [csv_record].
    destruct (IH row (dset acc (KS h) (VStr c)) Hn') as (rec & E & W & R).
    + cbn in Hl. lia.
    + intros x Hx. rewrite dget_dset_other; [apply Ha; now right|]. intros K. injection K as ->. contradiction.
    + now apply dwf_dset.
    + exists rec. split; [exact E|]. split; [exact W|]. intros k v. rewrite R, dget_dset. destruct (key_eqb k (KS h)) eqn:Ek.
      * apply key_eqb_eq in Ek as ->. split.
        -- intros [K|(x & d & K1 & -> & i & K2 & K3)].
           ++ injection K as <-. right. exists h, c. split; [reflexivity|]. split; [reflexivity|]. exists 0. now split.
           ++ right. exists x, d. split; [exact K1|]. split; [reflexivity|]. exists (S i). now split.
        -- intros [K|(x & d & K1 & -> & i & K2 & K3)].
           ++ rewrite (Ha h (or_introl eq_refl)) in K. discriminate.
           ++ injection K1 as <-. left. destruct i as [|i]; cbn in K2, K3; [congruence|]. apply nth_in in K2. contradiction.
      * apply key_eqb_neq in Ek. split.
        -- intros [K|(x & d & K1 & -> & i & K2 & K3)]; [now left|]. right. exists x, d. split; [exact K1|]. split; [reflexivity|]. exists (S i). now split.
        -- intros [K|(x & d & K1 & -> & i & K2 & K3)]; [now left|]. right. exists x, d. split; [exact K1|]. split; [reflexivity|].
           destruct i as [|i]; [cbn in K2; congruence|]. exists i. now split.
Qed.
Lemma cell_fun hs row h c c' : NoDup hs -> cell_at hs row h c -> cell_at hs row h c' -> c = c'.
Proof.
  intros Hn (i & H1 & H2) (j & H3 & H4). assert (i = j) as ->; [|congruence]. eapply NoDup_nth_error; [exact Hn|apply nth_error_Some; congruence|congruence].
Qed.
Lemma csv_row_ok hs key data row c : NoDup hs -> length row <= length hs -> cell_at hs row key c ->
  exists rec, csv_row key hs data row = Ok (dset data (KS c) (VDict rec)) /\ others hs row key rec.
Proof.
  intros Hn Hl Hc. destruct (csv_record_ok hs row [] Hn Hl (fun _ _ => eq_refl) dwf_nil) as (t & E & W & R).
  exists (ddel t (KS key)). unfold csv_row. rewrite E. cbn [rbind].
  assert (dget t (KS key) = Some (VStr c)) as -> by (apply R; right; exists key, c; auto). split; [reflexivity|].
  intros k v. destruct (key_eqb k (KS key)) eqn:Ek.
  - apply key_eqb_eq in Ek as ->. rewrite dget_ddel_same by exact W. split; [discriminate|]. intros (h & d & K & _ & K' & _). congruence.
  - apply key_eqb_neq in Ek. rewrite dget_ddel_other by congruence. rewrite R. split.
    + intros [K|(h & d & -> & -> & K)]; [discriminate|]. exists h, d. split; [reflexivity|]. split; [reflexivity|]. split; [congruence|exact K].
    + intros (h & d & -> & -> & _ & K). right. now exists h, d.
Qed.
(** ** the dictionary *)
Lemma rows_load hs key rows : NoDup hs -> Forall (good_row hs key) rows -> exists data, rfold (csv_row key hs) rows [] = Ok data /\ loads_to hs key rows data.
Proof.
  intros Hn. assert (K : forall rows done data, Forall (good_row hs key) rows -> loads_to hs key done data ->
    exists data', rfold (csv_row key hs) rows data = Ok data' /\ loads_to hs key (done ++ rows) data').
  { clear rows. induction rows as [|row rows IH]; intros done data H Hd; cbn [rfold]; [exists data; rewrite app_nil_r; now split|].
    inversion H as [|? ? [Hl [c Hc]] Hr]; subst. destruct (csv_row_ok hs key data row c Hn Hl Hc) as (rec & E & Ho). rewrite E. cbn [rbind].
    replace (done ++ row :: rows) with ((done ++ [row]) ++ rows) by (now rewrite <- app_assoc). apply IH; [exact Hr|]. destruct Hd as [D1 D2]. split.
    - intros c' row' (pre & post & E1 & Hc' & Hp). destruct (str_eqb c' c) eqn:Ec.
      + apply str_eqb_eq in Ec as ->. rewrite dget_dset_same. exists rec. split; [reflexivity|].
        assert (row' = row) as ->; [|exact Ho]. destruct post as [|x post] using rev_ind; [apply app_inj_tail in E1 as [_ E1]; congruence|].
        exfalso. replace (pre ++ row' :: post ++ [x]) with ((pre ++ row' :: post) ++ [x]) in E1 by now rewrite <- app_assoc. apply app_inj_tail in E1 as [_ <-].
        apply (Hp row); [apply in_or_app; right; now left|exact Hc].
      + apply str_eqb_neq in Ec. rewrite dget_dset_other by congruence. apply D1. destruct post as [|x post] using rev_ind.
        * apply app_inj_tail in E1 as [_ E1]. subst row'. exfalso. apply Ec. eapply cell_fun; eassumption.
        * replace (pre ++ row' :: post ++ [x]) with ((pre ++ row' :: post) ++ [x]) in E1 by now rewrite <- app_assoc. apply app_inj_tail in E1 as [-> <-].
          exists pre, post. split; [reflexivity|]. split; [exact Hc'|]. intros r Hr'. apply Hp. apply in_or_app. now left.
    - intros k v. rewrite dget_dset. destruct (key_eqb k (KS c)) eqn:Ek.
      + intros _. apply key_eqb_eq in Ek as ->. exists c, row. split; [reflexivity|]. exists done, []. split; [reflexivity|]. split; [exact Hc|]. intros r [].
      + apply key_eqb_neq in Ek. intros Hv. destruct (D2 k v Hv) as (c' & row' & -> & pre & post & -> & Hc' & Hp). exists c', row'. split; [reflexivity|].
        exists pre, (post ++ [row]). split; [rewrite <- app_assoc; reflexivity|]. split; [exact Hc'|]. intros r Hr'. apply in_app_or in Hr' as [Hr'|[<-|[]]]; [now apply Hp|].
        intros K. apply Ek. f_equal. eapply cell_fun; eassumption. }
  intros H. apply (K rows [] [] H). split.
  - intros c row (pre & post & E & _). destruct pre; discriminate.
  - intros k v Hk. discriminate.
Qed.
Lemma table_rows_ne rows text : table_text rows text -> Forall (fun r => r <> []) rows.
Proof. intros (lines & H & _). clear - H. induction H as [|r l rs ls Hr _ IH]; constructor; [eapply row_ne, Hr|exact IH]. Qed.
Lemma filter_ne (rows : list (list str)) : Forall (fun r => r <> []) rows -> filter (fun row : list str => match row with [] => false | _ => true end) rows = rows.
Proof. induction 1 as [|r rows H _ IH]; [reflexivity|]. cbn [filter]. destruct r; [congruence|]. now rewrite IH. Qed.
Theorem load_csv_ok key hs rows text : table_text (hs :: rows) text -> NoDup hs ->
  let key' := match key with [] => hd [] hs | _ => key end in
  In key' hs -> Forall (good_row hs key') rows ->
  exists data, load_csv key text = Ok data /\ loads_to hs key' rows data.
Proof.
  intros Ht Hn key' Hk Hr. unfold load_csv. rewrite (reader_rows _ _ Ht), (filter_ne _ (table_rows_ne _ _ Ht)). destruct (rows_load hs key' rows Hn Hr) as (data & E & L).
  exists data. split; [|exact L]. subst key'. destruct key as [|a key]; [exact E|].
  assert (existsb (str_eqb (a :: key)) hs = true) as -> by (apply existsb_exists; exists (a :: key); split; [exact Hk|apply str_eqb_refl]). exact E.
Qed.
Theorem load_csv_unknown key hs rows text : table_text (hs :: rows) text -> key <> [] -> ~ In key hs -> load_csv key text = Ok [].
Proof.
  intros Ht Hk Hi. unfold load_csv. rewrite (reader_rows _ _ Ht), (filter_ne _ (table_rows_ne _ _ Ht)). destruct key as [|a key]; [congruence|].
  assert (existsb (str_eqb (a :: key)) hs = false) as ->; [|reflexivity]. apply not_true_is_false. intros K. apply existsb_exists in K as (x & Hx & E). apply str_eqb_eq in E. congruence.
Qed.

(** ** rows that do not fit *)
Lemma csv_record_long hs : forall row acc, length hs < length row -> csv_record hs row acc = Raise IndexError.
Proof. induction hs as [|h hs IH]; intros [|c row] acc H; cbn in *; try lia; [reflexivity|]. apply IH. lia. Qed.
Lemma csv_row_bad hs key data row : NoDup hs ->
  (length hs < length row -> csv_row key hs data row = Raise IndexError) /\
  (length row <= length hs -> ~ (exists c, cell_at hs row key c) -> csv_row key hs data row = Raise KeyError).
Proof.
  intros Hn. split; intros H.
  - unfold csv_row. now rewrite csv_record_long.
  - intros Hc. destruct (csv_record_ok hs row [] Hn H (fun _ _ => eq_refl) dwf_nil) as (t & E & W & R). unfold csv_row. rewrite E. cbn [rbind].
    destruct (dget t (KS key)) as [v|] eqn:Ev; [|reflexivity]. exfalso. apply Hc. apply R in Ev as [Ev|(h & c & K & _ & K')]; [discriminate|]. injection K as <-. now exists c.
Qed.
Lemma cell_dec hs row key : {exists c, cell_at hs row key c} + {~ exists c, cell_at hs row key c}.
Proof.
  revert row. induction hs as [|h hs IH]; intros row.
  - right. intros (c & i & K & _). destruct i; discriminate.
  - destruct row as [|c row]; [right; intros (c & i & _ & K); destruct i; discriminate|].
    destruct (list_eq_dec Ascii.ascii_dec h key) as [->|Hne]; [left; exists c; exists 0; now split|].
    destruct (IH row) as [H|H]; [left; destruct H as (d & i & H1 & H2); exists d; exists (S i); now split|].
    right. intros (d & [|i] & K1 & K2); [cbn in K1; congruence|]. apply H. exists d. exists i. now split.
Qed.
Theorem rows_fail hs key rows : NoDup hs -> ~ Forall (good_row hs key) rows -> forall data,
  rfold (csv_row key hs) rows data = Raise IndexError \/ rfold (csv_row key hs) rows data = Raise KeyError.
Proof.
  intros Hn. induction rows as [|row rows IH]; intros H data; [exfalso; apply H; constructor|]. cbn [rfold].
  destruct (csv_row_bad hs key data row Hn) as [B1 B2]. destruct (Nat.le_gt_cases (length row) (length hs)) as [Hl|Hl].
  - destruct (cell_dec hs row key) as [Hc|Hc].
    + destruct Hc as [c Hc]. destruct (csv_row_ok hs key data row c Hn Hl Hc) as (rec & -> & _). cbn [rbind]. apply IH. intros K. apply H. constructor; [|exact K]. split; [exact Hl|now exists c].
    + right. now rewrite (B2 Hl Hc).
  - left. now rewrite (B1 Hl).
Qed.
Theorem load_csv_fails key hs rows text : table_text (hs :: rows) text -> NoDup hs ->
  let key' := match key with [] => hd [] hs | _ => key end in
  In key' hs -> ~ Forall (good_row hs key') rows ->
  load_csv key text = Raise IndexError \/ load_csv key text = Raise KeyError.
Proof.
  intros Ht Hn key' Hk Hr. unfold load_csv. rewrite (reader_rows _ _ Ht), (filter_ne _ (table_rows_ne _ _ Ht)). subst key'. destruct key as [|a key]; [now apply rows_fail|].
  assert (existsb (str_eqb (a :: key)) hs = true) as -> by (apply existsb_exists; exists (a :: key); split; [exact Hk|apply str_eqb_refl]). now apply rows_fail.
Qed.
