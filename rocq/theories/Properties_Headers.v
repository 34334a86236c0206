(** * C122: tables.

    A line of headings with [{{ _headers_ }}] describes the rows of a table.  Each row of
    the text is cut where the headings start, whatever is in it. *)
From Coq Require Import Lia.
From Verif Require Import PyBase DictFacts StrFacts Regex FormRegex SpecForm Template Results Attributes MatchVar SpecAttr SpecVariable VariableFacts VariableFacts2 SpecHeaders HeadersFacts HeadersFacts2 HeadersFacts3.
Local Open Scope string_scope.
Local Open Scope list_scope.

(** the line: headings after an indentation, then the variable *)
Definition table_line (v : varobj) (indent : str) (l : list heading) (gap rest : str) : str := heading_line indent l ++ gap ++ brace (vo_text v) ++ rest.
Definition table_ok (indent : str) (l : list heading) (gap : str) : Prop := blanks indent /\ blanks gap /\ headings l /\ nd opn (heading_line indent l ++ gap).

(** when the line makes an expression: headings that are different names, and a first required column *)
Theorem C122_when : forall v indent l gap rest, table_ok indent l gap ->
  ((exists r names ast, headers_regex v (table_line v indent l gap rest) = Ok (r, names) /\ re_compile r = Some ast) <->
   (exists c, required (Z.of_nat (length l)) (vo_attrs v) c /\ (1 <= c)%Z /\ Forall group_name (map fst l) /\ NoDup (map fst l))).
Proof.
  intros v indent l gap rest (Hi & Hg & Hl & Hn). split.
  - intros (r & names & ast & H & Hc). pose proof H as H0. unfold table_line in H0. rewrite (headers_eq v _ indent gap rest l eq_refl Hi Hg Hl Hn) in H0.
    destruct (columns_of (vo_attrs v) (Z.of_nat (length l)) (Z.of_nat (length l) - 2)) as [c|] eqn:Er; [|discriminate]. apply required_iff in Er. exists c. split; [exact Er|].
    pose proof (headers_none v _ indent gap rest l eq_refl Hi Hg Hl Hn c Er) as N.
    destruct (Z_lt_le_dec c 1) as [K|K]; [rewrite (N (or_introl K) r names H) in Hc; discriminate|]. split; [exact K|].
    assert (Dn : Forall group_name (map fst l) \/ ~ Forall group_name (map fst l)).
    { destruct (forallb MatchVar.identifier (map fst l)) eqn:E; [left|right].
      - apply Forall_forall. intros w Hw. apply identifier_iff. now apply (proj1 (forallb_forall _ _) E).
      - intros J. assert (X : forallb MatchVar.identifier (map fst l) = true) by (apply forallb_forall; intros w Hw; apply identifier_iff; rewrite Forall_forall in J; now apply J). congruence. }
    destruct Dn as [Dn|Dn]; [|rewrite (N (or_intror (or_introl Dn)) r names H) in Hc; discriminate]. split; [exact Dn|].
    destruct (ListDec.NoDup_dec (list_eq_dec ascii_dec) (map fst l)) as [D|D]; [exact D|]. rewrite (N (or_intror (or_intror D)) r names H) in Hc. discriminate.
  - intros (c & Hr & Hc & Hg' & Hd). destruct (headers_rows v _ indent gap rest l eq_refl Hi Hg Hl Hn c Hr Hc Hg' Hd) as (r & ast & H1 & H2 & _). exists r, (map fst l), ast. auto.
Qed.
Print Assumptions C122_when.
(** what it finds: every line that reaches the required columns, in order, cut at the columns *)
Theorem C122_rows : forall v indent l gap rest c, table_ok indent l gap ->
  required (Z.of_nat (length l)) (vo_attrs v) c -> (1 <= c)%Z -> Forall group_name (map fst l) -> NoDup (map fst l) ->
  exists r ast, headers_regex v (table_line v indent l gap rest) = Ok (r, map fst l) /\ re_compile r = Some ast /\
    forall d, map m_caps (finditer ast (nl :: d ++ [nl])) =
      flat_map (fun s => if reaches (widths indent l) c s then [combine (map fst l) (cells (widths indent l) s)] else []) (split [nl] d).
Proof. intros v indent l gap rest c (Hi & Hg & Hl & Hn). exact (headers_rows v _ indent gap rest l eq_refl Hi Hg Hl Hn c). Qed.
Print Assumptions C122_rows.
(** the columns of a row are the row again *)
Theorem C122_nothing_lost : forall ws s, ws <> [] -> concat (cells ws s) = s /\ length (cells ws s) = length ws.
Proof.
  induction ws as [|w ws IH]; intros s H; [congruence|]. destruct ws as [|w' ws]; [cbn; now rewrite app_nil_r|]. destruct (IH (skipn w s) ltac:(discriminate)) as [H1 H2].
  change (cells (w :: w' :: ws) s) with (firstn w s :: cells (w' :: ws) (skipn w s)). cbn [concat length]. rewrite H1, H2. split; [apply firstn_skipn|reflexivity].
Qed.
Print Assumptions C122_nothing_lost.
(** the variables of the columns *)
Theorem C122_variables : forall vars g v line regex d r subs d', vo_name v = t_ "_headers_" ->
  variable_regex vars g v line regex d = Ok (r, subs, d') <-> exists names, headers_regex v line = Ok (r, names) /\ columns_made vars g names d subs d'.
Proof.
  intros vars g v line regex d r subs d' Hn. unfold variable_regex. rewrite Hn. change (str_eqb (t_ "_headers_") $"_headers_") with true. cbn iota. split.
  - destruct (headers_regex v line) as [[r0 hs]|]; [|discriminate]. cbn [rbind]. destruct (sub_variables vars g hs d) as [[l d0]|] eqn:E; [|discriminate]. cbn [rbind]. intros H. injection H as <- <- <-. exists hs. split; [reflexivity|]. now apply made_iff.
  - intros (names & -> & H). apply made_iff in H. cbn [rbind]. now rewrite H.
Qed.
Print Assumptions C122_variables.
(** an ordinary heading: its value is stripped, and a row where it is the heading itself is no row *)
Theorem C122_column : forall vars g w d, SpecAttr.identifier w -> name_means w (VStr w) -> ~ among w own_meaning ->
  new_variable vars g (column_text w) [] d = Ok (column_variable vars g w d).
Proof. exact column_plain. Qed.
Print Assumptions C122_column.

(** non-vacuity *)
Definition x122_v (attrs : list attribute) : varobj := {| vo_text := $" _headers_ "; vo_name := $"_headers_"; vo_orig := $"_headers_"; vo_dict := {| at_name := $"_headers_"; at_args := []; at_kwargs := [] |}; vo_attrs := attrs;
  vo_st := {| v_funcs := []; v_action := AStart; v_isline := false; v_skipvar := false; v_skipre := false; v_res := []; v_defaults := [] |} |}.
Definition x122_l : list heading := [($"Port", $"  "); ($"Name", $"   "); ($"Status", $" "); ($"Vlan", [])].
Example C122_ex_line : table_line (x122_v []) $" " x122_l $" " [] = $" Port  Name   Status Vlan {{ _headers_ }}".
Proof. vm_compute. reflexivity. Qed.
Example C122_ex_ok : table_ok $" " x122_l $" " /\ required 4 [] 2 /\ Forall group_name (map fst x122_l) /\ NoDup (map fst x122_l) /\ widths $" " x122_l = [7; 7; 7; 4].
Proof.
  split; [|split; [apply (rq_default 4); constructor|split; [|split; [|reflexivity]]]].
  - split; [repeat constructor|]. split; [repeat constructor|]. split; [|vm_compute; reflexivity].
    repeat (first [apply hd_more; [split; [discriminate|repeat constructor]|discriminate|repeat constructor|]|apply hd_last; split; [discriminate|repeat constructor]]).
  - repeat (apply Forall_cons; [split; [discriminate|split; [repeat constructor|vm_compute; discriminate]]|]). constructor.
  - vm_compute. repeat (constructor; [intros K; repeat (destruct K as [K|K]; [discriminate|]); exact K|]). constructor.
Qed.
Definition x122_rows (attrs : list attribute) (d : str) : res (list (list str)) :=
  do (r, _) <- headers_regex (x122_v attrs) (table_line (x122_v attrs) $" " x122_l $" " []);
  match re_compile r with Some ast => Ok (map (fun m => map snd (m_caps m)) (finditer ast (nl :: d ++ [nl]))) | None => Raise ReError end.
Example C122_ex_rows : x122_rows [] (join [nl] [$" Port  Name   Status Vlan"; $" Gi1   up     on     10  x"; $" Gi2   yy"; $" Gi33"]) =
  Ok [[$" Port  "; $"Name   "; $"Status "; $"Vlan"]; [$" Gi1   "; $"up     "; $"on     "; $"10  x"]; [$" Gi2   "; $"yy"; []; []]].
Proof. vm_compute. reflexivity. Qed.
Example C122_ex_columns : x122_rows [{| at_name := $"columns"; at_args := [VInt 9]; at_kwargs := [] |}] (join [nl] [$" Gi1   up     on     10"; $" Gi2   yy     on     "]) =
  Ok [[$" Gi1   "; $"up     "; $"on     "; $"10"]].
Proof. vm_compute. reflexivity. Qed.
Example C122_ex_column : SpecAttr.identifier $"Port" /\ name_means $"Port" (VStr $"Port") /\ ~ among $"Port" own_meaning.
Proof.
  split; [|split].
  - exists "P"%char, $"ort". split; [reflexivity|]. split; [unfold a_letter; cbn; lia|]. repeat (apply Forall_cons; [left; unfold a_letter; cbn; lia|]). constructor.
  - apply nm_text; intros K; apply SessionFacts.in_strs_In in K; vm_compute in K; discriminate.
  - intros K. apply SessionFacts.in_strs_In in K. vm_compute in K. discriminate.
Qed.
(** one or two headings need [columns] *)
Example C122_ex_two : x122_rows [] [] <> Raise ReError /\
  (do (r, _) <- headers_regex (x122_v []) $"A B {{ _headers_ }}"; Ok (re_compile r)) = Ok None /\ headers_regex (x122_v []) $"A {{ _headers_ }}" = Raise IndexError.
Proof. vm_compute. split; [discriminate|]. split; reflexivity. Qed.
