(** * Properties_Csv: C57, C62, C97 - csv printed and loaded.

    [load_csv key text] models the csv loader of <lookup>, <vars> and <input> tags (loaders.py),
    [csv_text sep quote table] the csv formatter, [csv_reader text] Python's csv.reader on
    [text.splitlines()].  The vocabulary of the statements is in SpecCsv.v. *)
From Verif Require Import PyBase DictFacts Outputs Loaders SpecCsv LoaderFacts CsvFacts Properties_Save.
Local Open Scope string_scope.
Local Open Scope list_scope.

Definition lines_ (l : list string) : str := join [nl] (map (fun x => $x) l).
Definition cells_ (l : list string) : list str := map (fun x => $x) l.
Ltac plain_cell := apply wr_plain; [apply Forall_forall; intros ? Hi; vm_compute in Hi; repeat (destruct Hi as [<- |Hi]; [intros Hb; vm_compute in Hb; repeat (destruct Hb as [Hb|Hb]; [discriminate|]); exact Hb|]); destruct Hi
  | intros Hi; vm_compute in Hi; repeat (destruct Hi as [Hi|Hi]; [discriminate|]); exact Hi
  | intros Hi; vm_compute in Hi; repeat (destruct Hi as [Hi|Hi]; [discriminate|]); exact Hi].

(** ** C62 *)
(** every row read is the row written, with or without quotes *)
Theorem C62_rows : forall rows text, table_text rows text -> csv_reader text = rows.
Proof. exact reader_rows. Qed.
Print Assumptions C62_rows.
(** without a key the first column is the key *)
Theorem C62_load : forall key hs rows text, table_text (hs :: rows) text -> NoDup hs ->
  let key' := match key with [] => hd [] hs | _ => key end in
  In key' hs -> Forall (good_row hs key') rows ->
  exists data, load_csv key text = Ok data /\ loads_to hs key' rows data.
Proof. exact load_csv_ok. Qed.
Print Assumptions C62_load.
(** a key that is not a header: nothing is loaded *)
Theorem C62_unknown_key : forall key hs rows text, table_text (hs :: rows) text -> key <> [] -> ~ In key hs -> load_csv key text = Ok [].
Proof. exact load_csv_unknown. Qed.
Print Assumptions C62_unknown_key.
Example C62_ex :
  let text := lines_ ["name,ip,vlan"; "sw1,10.0.0.1,3"; "sw2,10.0.0.2"; "sw1,10.0.0.9,4"] in
  table_text [cells_ ["name"; "ip"; "vlan"]; cells_ ["sw1"; "10.0.0.1"; "3"]; cells_ ["sw2"; "10.0.0.2"]; cells_ ["sw1"; "10.0.0.9"; "4"]] text /\
  load_csv [] text = Ok (r_ [("sw1", d_ [("ip", s_ "10.0.0.9"); ("vlan", s_ "4")]); ("sw2", d_ [("ip", s_ "10.0.0.2")])]) /\
  load_csv $"ip" text = Ok (r_ [("10.0.0.1", d_ [("name", s_ "sw1"); ("vlan", s_ "3")]); ("10.0.0.2", d_ [("name", s_ "sw2")]); ("10.0.0.9", d_ [("name", s_ "sw1"); ("vlan", s_ "4")])]).
Proof.
  cbn zeta. split; [|split; vm_compute; reflexivity].
  exists (map list_ascii_of_string ["name,ip,vlan"; "sw1,10.0.0.1,3"; "sw2,10.0.0.2"; "sw1,10.0.0.9,4"]). split; [|split; [|apply LoaderFacts.join_laid]].
  - unfold cells_. cbn [map]. repeat constructor.
    + apply (rt_more $"name" $"name" [$"ip"; $"vlan"] $"ip,vlan"); [plain_cell|]. apply (rt_more $"ip" $"ip" [$"vlan"] $"vlan"); [plain_cell|]. apply rt_one. plain_cell.
    + apply (rt_more $"sw1" $"sw1" [$"10.0.0.1"; $"3"] $"10.0.0.1,3"); [plain_cell|]. apply (rt_more $"10.0.0.1" $"10.0.0.1" [$"3"] $"3"); [plain_cell|]. apply rt_one. plain_cell.
    + apply (rt_more $"sw2" $"sw2" [$"10.0.0.2"] $"10.0.0.2"); [plain_cell|]. apply rt_one. plain_cell.
    + apply (rt_more $"sw1" $"sw1" [$"10.0.0.9"; $"4"] $"10.0.0.9,4"); [plain_cell|]. apply (rt_more $"10.0.0.9" $"10.0.0.9" [$"4"] $"4"); [plain_cell|]. apply rt_one. plain_cell.
  - repeat constructor; discriminate.
Qed.

(** ** C97: a csv table always loads *)
Theorem C97_limits : ~ (forall key text, exists data, load_csv key text = Ok data).
Proof. intros H. destruct (H [] (lines_ ["a,b"; "1,2,3"])) as [d E]. vm_compute in E. discriminate. Qed.
Print Assumptions C97_limits.
(** it loads iff every row fits: it is not longer than the header row and has a cell under the key *)
Theorem C97_fits : forall key hs rows text, table_text (hs :: rows) text -> NoDup hs ->
  let key' := match key with [] => hd [] hs | _ => key end in
  In key' hs -> ((exists data, load_csv key text = Ok data) <-> Forall (good_row hs key') rows).
Proof.
  intros key hs rows text Ht Hn key' Hk. split.
  - intros [data E]. assert (D : forall row : list str, {good_row hs key' row} + {~ good_row hs key' row}).
    { intros row. unfold good_row. destruct (le_dec (length row) (length hs)); [|right; tauto]. destruct (cell_dec hs row key'); [left|right]; tauto. }
    destruct (Forall_dec _ D rows) as [F|F]; [exact F|]. destruct (load_csv_fails key hs rows text Ht Hn Hk F) as [K|K]; congruence.
  - intros F. destruct (load_csv_ok key hs rows text Ht Hn Hk F) as (data & E & _). now exists data.
Qed.
Print Assumptions C97_fits.
Example C97_ex : load_csv $"b" (lines_ ["a,b"; "1"]) = Raise KeyError /\ load_csv [] (lines_ ["a,b"; "1"; ""; "2,3"; ""]) = Ok (r_ [("1", d_ []); ("2", d_ [("b", s_ "3")])]).
Proof. vm_compute. repeat split. Qed.

(** ** C57 *)
(** a quote in a cell is printed as it is *)
Theorem C57_limits_quote : ~ (forall hs rows text, csv_text [comma_char] [quote_char] (map KS hs, rows) = Ok text -> csv_reader text = hs :: map (map py_str) rows).
Proof.
  intros H. specialize (H [$"a"; $"b"] [[s_ "x"",""y"; s_ "z"]] ($"""a"",""b""" ++ nl :: $"""x"",""y"",""z""")). assert (K : csv_reader ($"""a"",""b""" ++ nl :: $"""x"",""y"",""z""") = [[$"a"; $"b"]; [$"x"; $"y"; $"z"]]) by (vm_compute; reflexivity).
  rewrite K in H. assert (E : [[$"a"; $"b"]; [$"x"; $"y"; $"z"]] = [$"a"; $"b"] :: map (map py_str) [[s_ "x"",""y"; s_ "z"]]) by (apply H; vm_compute; reflexivity).
  discriminate E.
Qed.
Print Assumptions C57_limits_quote.
(** cells without quotes and line breaks are read back *)
Theorem C57_rows : forall hs rows,
  hs <> [] -> Forall simple_cell hs -> Forall (fun row => length row = length hs /\ Forall (fun v => simple_cell (py_str v)) row) rows ->
  exists text, csv_text [comma_char] [quote_char] (map KS hs, rows) = Ok text /\ csv_reader text = hs :: map (map py_str) rows.
Proof. intros hs rows H1 H2 H3. destruct (csv_text_table hs rows H1 H2 H3) as (text & E & T). exists text. split; [exact E|]. now apply reader_rows. Qed.
Print Assumptions C57_rows.
(** and load as the dictionary of the table *)
Theorem C57_load : forall key hs rows,
  hs <> [] -> NoDup hs -> Forall simple_cell hs -> Forall (fun row => length row = length hs /\ Forall (fun v => simple_cell (py_str v)) row) rows ->
  let key' := match key with [] => hd [] hs | _ => key end in
  In key' hs ->
  exists text data, csv_text [comma_char] [quote_char] (map KS hs, rows) = Ok text /\ load_csv key text = Ok data /\ loads_to hs key' (map (map py_str) rows) data.
Proof.
  intros key hs rows H1 Hn H2 H3 key' Hk. destruct (csv_text_table hs rows H1 H2 H3) as (text & E & T). exists text.
  destruct (load_csv_ok key hs (map (map py_str) rows) text T Hn Hk) as (data & L1 & L2).
  - clear - H3 Hk. fold key'. apply Forall_forall. intros row Hrow. apply in_map_iff in Hrow as (r & <- & Hr). rewrite Forall_forall in H3. destruct (H3 r Hr) as [Hl _].
    split; [rewrite map_length; lia|]. apply In_nth_error in Hk as [i Hi]. assert (i < length r) as Hlt by (rewrite Hl; apply nth_error_Some; congruence).
    apply nth_error_Some in Hlt. destruct (nth_error r i) as [v|] eqn:Ev; [|congruence]. exists (py_str v). exists i. split; [exact Hi|]. rewrite nth_error_map, Ev. reflexivity.
  - exists data. now split.
Qed.
Print Assumptions C57_load.
Example C57_ex :
  csv_text [comma_char] [quote_char] ([KS $"a"; KS $"b"], [[s_ "1, 2"; VInt 7]; [s_ ""; s_ "x"]]) = Ok (lines_ ["""a"",""b"""; """1, 2"",""7"""; """"",""x"""]) /\
  csv_reader (lines_ ["""a"",""b"""; """1, 2"",""7"""; """"",""x"""]) = [cells_ ["a"; "b"]; cells_ ["1, 2"; "7"]; cells_ [""; "x"]].
Proof. vm_compute. repeat split. Qed.
(** the other failures: an empty table, headers that are not strings *)
Theorem C57_limits_empty : ~ (forall t text, csv_text [comma_char] [quote_char] t = Ok text -> length (hd [] (csv_reader text)) = length (fst t)).
Proof. intros H. specialize (H ([], []) $"""""" eq_refl). vm_compute in H. discriminate. Qed.
Print Assumptions C57_limits_empty.
Theorem C57_limits_header : ~ (forall t, exists text, csv_text [comma_char] [quote_char] t = Ok text).
Proof. intros H. destruct (H ([KI 1], [])) as [text E]. discriminate. Qed.
Print Assumptions C57_limits_header.
