(** * CsvFacts: what the csv formatter prints, read back. *)
From Verif Require Import PyBase DictFacts StrFacts Outputs Loaders SpecCsv LoaderFacts.
Local Open Scope string_scope.
Local Open Scope list_scope.

Lemma doubled_id c : ~ In quote_char c -> doubled c = c.
Proof.
  induction c as [|a c IH]; intros H; [reflexivity|]. cbn [doubled]. destruct (Ascii.eqb a quote_char) eqn:E.
  - apply Ascii.eqb_eq in E as ->. exfalso. apply H. now left.
  - rewrite IH; [reflexivity|]. intros K. apply H. now right.
Qed.
Lemma written_simple c : simple_cell c -> written c (quote_char :: c ++ [quote_char]).
Proof. intros [H1 H2]. rewrite <- (doubled_id c H2) at 2. now apply wr_quoted. Qed.
Lemma csv_line_row cells : cells <> [] -> Forall simple_cell cells -> row_text cells (csv_line [comma_char] [quote_char] cells).
Proof.
  intros Hne H. destruct cells as [|c cells]; [congruence|]. clear Hne. revert c H. induction cells as [|d cells IH]; intros c H.
  - inversion H; subst. apply rt_one. now apply written_simple.
  - inversion H as [|? ? Hc Hr]; subst. specialize (IH d Hr).
    assert (csv_line [comma_char] [quote_char] (c :: d :: cells) = (quote_char :: c ++ [quote_char]) ++ comma_char :: csv_line [comma_char] [quote_char] (d :: cells)) as ->.
    { unfold csv_line. set (J := [quote_char] ++ [comma_char] ++ [quote_char]).
      change (join J (c :: d :: cells)) with (c ++ J ++ join J (d :: cells)). subst J. cbn [app]. f_equal. rewrite <- !app_assoc. reflexivity. }
    apply rt_more; [now apply written_simple|exact IH].
Qed.
Lemma csv_line_ne cells : csv_line [comma_char] [quote_char] cells <> [].
Proof. discriminate. Qed.
Lemma str_keys_ok hs : str_keys (map KS hs) = Ok hs.
Proof. induction hs as [|h hs IH]; [reflexivity|]. cbn [map str_keys]. now rewrite IH. Qed.
Lemma fold_lines (f : list val -> str) rows : forall acc, fold_left (fun acc row => acc ++ nl :: f row) rows acc = join [nl] (acc :: map f rows).
Proof.
  induction rows as [|r rows IH]; intros acc; [reflexivity|]. cbn [fold_left map]. rewrite IH.
  destruct rows as [|r2 rows]; cbn [map].
  - reflexivity.
  - change (join [nl] (acc :: f r :: f r2 :: map f rows)) with (acc ++ [nl] ++ join [nl] (f r :: f r2 :: map f rows)).
    change (join [nl] (f r :: f r2 :: map f rows)) with (f r ++ [nl] ++ join [nl] (f r2 :: map f rows)).
    change (join [nl] ((acc ++ nl :: f r) :: f r2 :: map f rows)) with ((acc ++ nl :: f r) ++ [nl] ++ join [nl] (f r2 :: map f rows)).
    now rewrite <- !app_assoc.
Qed.
Theorem csv_text_table hs rows :
  hs <> [] -> Forall simple_cell hs -> Forall (fun row => length row = length hs /\ Forall (fun v => simple_cell (py_str v)) row) rows ->
  exists text, csv_text [comma_char] [quote_char] (map KS hs, rows) = Ok text /\ table_text (hs :: map (map py_str) rows) text.
Proof.
  intros Hne Hh Hr. unfold csv_text. cbn [fst snd]. rewrite str_keys_ok. cbn [rbind]. eexists. split; [reflexivity|].
  rewrite (fold_lines (fun row => csv_line [comma_char] [quote_char] (map py_str row))).
  exists (csv_line [comma_char] [quote_char] hs :: map (fun row => csv_line [comma_char] [quote_char] (map py_str row)) rows). split; [|split; [|apply join_laid]].
  - constructor; [now apply csv_line_row|]. clear Hh. induction Hr as [|row rows [Hl Hc] _ IH]; cbn [map]; constructor; [|exact IH]. apply csv_line_row.
    + destruct row; [|discriminate]. destruct hs; [congruence|discriminate].
    + clear - Hc. induction Hc; cbn [map]; now constructor.
  - constructor; [apply csv_line_ne|]. apply Forall_forall. intros l Hl. apply in_map_iff in Hl as (row & <- & _). apply csv_line_ne.
Qed.
