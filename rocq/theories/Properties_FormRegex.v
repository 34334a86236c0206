(** * Properties_FormRegex: C38, C39, C89, C90 - a template line and the lines it matches.

    [line_regex info line] is the text of the regular expression built for a template
    line (/repo/ttp/ttp.py 2157-2336), [re_compile] reads it, [finditer] searches.
    [reads_line] (SpecLine.v) says what the line should match: indentation, the literal
    pieces up to [same_text], a text for each variable, then blanks to the end of the line. *)
From Coq Require Import Sorting.Sorted.
From Verif Require Import PyBase Regex SpecRegex RegexFacts Template FormRegex SpecLine SpecForm StrFacts ReadFacts LitFacts LineFacts LineRegex FindFacts RoundTrip CharFacts.
Local Open Scope string_scope.
Local Open Scope list_scope.

Lemma contains_mono a b s : containsb b a = true -> containsb a s = true -> containsb b s = true.
Proof.
  rewrite !containsb_spec. intros (u & v & ->) (x & y & ->). exists (x ++ u), (v ++ y). now rewrite <- !app_assoc.
Qed.
Lemma no_exact line : containsb $"_exact_" line = false -> exact_space_of line = false /\ exact_of line = false.
Proof.
  intros H. split; [|exact H]. apply Bool.not_true_is_false. intros K. unfold exact_space_of in K.
  apply (contains_mono _ $"_exact_") in K; [congruence|reflexivity].
Qed.

(** ** C38 *)
(** the expression of a line matches at a newline iff the line that starts there reads as the template line *)
Theorem C38_line : forall info indent lit parts q,
  let line := line_of indent lit parts in
  line_ok indent lit parts -> parts <> [] -> containsb $"_exact_" line = false ->
  line_pieces info false lit parts q -> NoDup (names_of q) ->
  exists ast, re_compile (line_regex info line) = Some ast /\
    forall s s' c, rel ast s [] s' c <-> reads_line false false indent q s s' c.
Proof.
  intros info indent lit parts q line Hok Hp Hx Hq HN. destruct (no_exact _ Hx) as [E1 E2].
  pose proof (line_regex_reads info indent lit parts q Hok Hp) as H. fold line in H. rewrite E1, E2 in H. exact (proj1 (H Hq) HN).
Qed.
Print Assumptions C38_line.
(** searching a text finds the lines that read as the template line, each once, in order *)
Theorem C38_search : forall info indent lit parts q,
  let line := line_of indent lit parts in
  line_ok indent lit parts -> parts <> [] -> containsb $"_exact_" line = false ->
  line_pieces info false lit parts q -> NoDup (names_of q) -> lacks nl indent -> one_line q ->
  exists ast, re_compile (line_regex info line) = Some ast /\ forall text,
    (forall m, In m (finditer ast text) -> m_end m <= length text /\
       reads_line false false indent q (skipn (m_start m) text) (skipn (m_end m) text) (m_caps m)) /\
    (forall a s s' c, text = a ++ s -> reads_line false false indent q s s' c -> exists m, In m (finditer ast text) /\ m_start m = length a) /\
    StronglySorted (fun m m' => m_end m <= m_start m') (finditer ast text).
Proof.
  intros info indent lit parts q line Hok Hp Hx Hq HN Hi H1. destruct (C38_line info indent lit parts q Hok Hp Hx Hq HN) as (ast & E & H).
  exists ast. split; [exact E|]. now apply finditer_lines.
Qed.
Print Assumptions C38_search.
(** literal text, spelled out: without variables in sight, [same_text] relates texts that differ in the length of
    their runs of blanks and digits and in what these runs consist of *)
Theorem C38_blank_run : forall xd a b w v, w <> [] -> v <> [] -> Forall (fun c => blank c = true) w -> Forall (fun c => blank c = true) v ->
  (forall u c, a = u ++ [c] -> blank c = false) -> (forall c u, b = c :: u -> blank c = false) -> same_text false xd (a ++ w ++ b) (a ++ v ++ b).
Proof.
  assert (K : forall xd a b w, w <> [] -> Forall (fun c => blank c = true) w ->
    (forall u c, a = u ++ [c] -> blank c = false) -> (forall c u, b = c :: u -> blank c = false) -> norm false xd (a ++ w ++ b) = norm false xd a ++ [space] ++ norm false xd b).
  { intros xd a b w Hw Fw Ha Hb. rewrite app_assoc. rewrite norm_app.
    - rewrite (norm_app_blank xd a w Hw Fw Ha). now rewrite <- app_assoc.
    - intros u c d x E Eb. apply blank_run; [|eapply Hb, Eb]. destruct (exists_last Hw) as (w' & y & ->). rewrite app_assoc in E. apply app_inj_tail in E as [_ <-].
      apply Forall_app in Fw as [_ Fw]. now inversion Fw. }
  intros xd a b w v Hw Hv Fw Fv Ha Hb. unfold same_text. now rewrite !K.
Qed.
Print Assumptions C38_blank_run.
Theorem C38_exact : forall l t, same_text true true l t <-> t = l.
Proof.
  assert (H : forall s, norm true true s = s). { intros s. rewrite norm_squeeze. reflexivity. }
  intros l t. unfold same_text. now rewrite !H.
Qed.
Print Assumptions C38_exact.

Definition xinfo (v : str) : vinfo := {| vi_name := strip v; vi_ignore := None; vi_set := false; vi_res := [] |}.
Definition xword : re := RSeq (rplus rS) REps.
Ltac xdef := apply lp_var; [intros K; vm_compute in K; discriminate|reflexivity|intros K; vm_compute in K; discriminate|vm_compute; repeat constructor|
  cbn; repeat (apply Forall2_cons || apply Forall2_nil); split; [reflexivity|split; reflexivity]|].
Example C38_ex : let parts := [($" ip ", $"  mtu 10")] in let line := line_of $" " $"ip address " parts in
  line = $" ip address {{ ip }}  mtu 10" /\ line_ok $" " $"ip address " parts /\ containsb $"_exact_" line = false /\
  line_pieces xinfo false $"ip address " parts [PLit $"ip address "; PVar (Some $"ip") [xword]; PLit $"  mtu 10"] /\
  one_line [PLit $"ip address "; PVar (Some $"ip") [xword]; PLit $"  mtu 10"] /\
  match re_compile (line_regex xinfo line) with
  | Some ast => map m_caps (finditer ast (nl :: $" ip  address 1.1.1.1 mtu 9000 " ++ nl :: $" ip address 2.2.2.2" ++ nl :: $" ip address x mtu 1" ++ [nl]))
                = [[($"ip", $"1.1.1.1")]; [($"ip", $"x")]]
  | None => False
  end.
Proof.
  cbv zeta. split; [reflexivity|]. split; [split; [repeat constructor|split; [split; [reflexivity|split; [split; [discriminate|reflexivity]|reflexivity]]|reflexivity]]|].
  split; [reflexivity|]. split; [xdef; apply lp_end|].
  split. { apply one_line_vars. repeat (apply Forall_cons || apply Forall_nil); cbv beta iota; try (intros K; vm_compute in K; intuition discriminate). vm_compute. reflexivity. }
  vm_compute. reflexivity.
Qed.

(** ** C39 *)
(** the claim that [_exact_space_] alone leaves digits relaxed is false: its name contains [_exact_] *)
Theorem C39_limits : ~ (forall info indent lit parts q,
  let line := line_of indent lit parts in
  line_ok indent lit parts -> parts <> [] -> containsb $"_exact_space_" line = true ->
  containsb $"_exact_" (replace_all $"_exact_space_" [] line) = false ->
  line_pieces info true lit parts q -> NoDup (names_of q) ->
  exists ast, re_compile (line_regex info line) = Some ast /\
    forall s s' c, rel ast s [] s' c <-> reads_line true false indent q s s' c).
Proof.
  intros H. specialize (H (fun v => {| vi_name := $"name"; vi_ignore := None; vi_set := false; vi_res := [] |}) [] $"vlan 10 " [($" name | _exact_space_ ", [])]
    [PLit $"vlan 10 "; PVar (Some $"name") [xword]; PLit []]). cbv zeta in H.
  destruct H as (ast & E & H); [split; [constructor|split; [split; [reflexivity|split; [split; [discriminate|reflexivity]|reflexivity]]|reflexivity]]|discriminate|reflexivity|reflexivity|xdef; apply lp_end|repeat constructor; intros []|].
  vm_compute in E. injection E as <-.
  match type of H with forall s s' c, rel ?r _ _ _ _ <-> _ =>
    assert (R : rel r (nl :: $"vlan 20 x" ++ [nl]) [] [nl] [($"name", $"x")]); [|assert (K : rmatch r (nl :: $"vlan 20 x" ++ [nl]) = None) by (vm_compute; reflexivity)] end.
  - apply H. exists ($"vlan 20 x" ++ [nl]), []. split; [reflexivity|]. split; [|split; [constructor|now exists []; left]].
    apply (rd_lit true false $"vlan 10 " _ $"vlan 20 " $"x
"). { reflexivity. }
    eapply (rd_var true false (Some $"name") [xword] xword _ $"x" [nl] _ []); [now left| |].
    + unfold xword. exists [nl], []. split; [|split; reflexivity]. apply rel_plus_set. split; [reflexivity|]. exists $"x". split; [discriminate|]. split; [reflexivity|]. repeat constructor.
    + apply (rd_lit true false [] [] [] [nl]); [reflexivity|]. apply rd_nil.
  - destruct (rmatch_complete _ _ _ _ R) as (? & ? & K2). congruence.
Qed.
Print Assumptions C39_limits.
(** what holds: [_exact_] alone makes digits literal and leaves blanks relaxed ... *)
Theorem C39_exact : forall info indent lit parts q,
  let line := line_of indent lit parts in
  line_ok indent lit parts -> parts <> [] -> containsb $"_exact_" line = true -> containsb $"_exact_space_" line = false ->
  line_pieces info false lit parts q -> NoDup (names_of q) ->
  exists ast, re_compile (line_regex info line) = Some ast /\
    forall s s' c, rel ast s [] s' c <-> reads_line false true indent q s s' c.
Proof.
  intros info indent lit parts q line Hok Hp E2 E1 Hq HN.
  pose proof (line_regex_reads info indent lit parts q Hok Hp) as H. fold line in H. unfold exact_space_of, exact_of in H. rewrite E1, E2 in H. exact (proj1 (H Hq) HN).
Qed.
Print Assumptions C39_exact.
(** ... and [_exact_space_] makes both literal: the text is the template's, character by character ([C38_exact]) *)
Theorem C39_exact_space : forall info indent lit parts q,
  let line := line_of indent lit parts in
  line_ok indent lit parts -> parts <> [] -> containsb $"_exact_space_" line = true ->
  line_pieces info true lit parts q -> NoDup (names_of q) ->
  exists ast, re_compile (line_regex info line) = Some ast /\
    forall s s' c, rel ast s [] s' c <-> reads_line true true indent q s s' c.
Proof.
  intros info indent lit parts q line Hok Hp E1 Hq HN. assert (E2 : containsb $"_exact_" line = true) by (eapply contains_mono; [|exact E1]; reflexivity).
  pose proof (line_regex_reads info indent lit parts q Hok Hp) as H. fold line in H. unfold exact_space_of, exact_of in H. rewrite E1, E2 in H. exact (proj1 (H Hq) HN).
Qed.
Print Assumptions C39_exact_space.
Definition xinfo1 (v : str) : vinfo := {| vi_name := $"name"; vi_ignore := None; vi_set := false; vi_res := [] |}.
Example C39_ex :
  let found t s := match re_compile (line_regex xinfo1 t) with Some ast => length (finditer ast (nl :: s ++ [nl])) | None => 99 end in
  [found $"vlan 10 {{ name }}" $"vlan  20 x"; found $"vlan 10 {{ name | _exact_ }}" $"vlan  20 x"; found $"vlan 10 {{ name | _exact_ }}" $"vlan  10 x";
   found $"vlan 10 {{ name | _exact_space_ }}" $"vlan  10 x"; found $"vlan 10 {{ name | _exact_space_ }}" $"vlan 10 x"; found $"vlan 10 {{ name | _exact_space_ }}" $"vlan 20 x"]
  = [1; 0; 1; 0; 1; 0].
Proof. vm_compute. reflexivity. Qed.

(** ** C89 *)
(** words set off by blanks: whatever the search prefers, the values found are the words in the variables' places *)
Theorem C89_values : forall info indent lit parts q,
  let line := line_of indent lit parts in
  line_ok indent lit parts -> parts <> [] -> line_pieces info (exact_space_of line) lit parts q -> NoDup (names_of q) ->
  lacks nl indent -> one_line q -> spaced false q ->
  exists ast, re_compile (line_regex info line) = Some ast /\ forall text a s s' c,
    text = a ++ s -> reads_line (exact_space_of line) (exact_of line) indent q s s' c ->
    exists m, In m (finditer ast text) /\ m_start m = length a /\ m_caps m = c.
Proof.
  intros info indent lit parts q line Hok Hp Hq HN Hi H1 Hs.
  destruct (proj1 (line_regex_reads info indent lit parts q Hok Hp Hq) HN) as (ast & E & H). exists ast. split; [exact E|]. now apply finditer_values.
Qed.
Print Assumptions C89_values.

(** the text a template line stands for, with [ws] in the places of its variables *)
Fixpoint fill (lit : str) (parts : list (str * str)) (ws : list str) : str :=
  lit ++ match parts, ws with (_, l) :: ps, w :: ws => w ++ fill l ps ws | _, _ => [] end.
Definition default_var (i : vinfo) : Prop :=
  vi_res i = [] /\ vi_set i = false /\ vi_name i <> [] /\ Forall (fun c => is_word c = true) (vi_name i) /\
  ~ In (vi_name i) [$"ignore"; $"_start_"; $"_end_"].
(** between two variables there is text that starts and ends with a blank *)
Fixpoint set_off (first : bool) (lit : str) (parts : list (str * str)) : Prop :=
  match parts with
  | [] => first = true \/ lit = [] \/ starts_blank lit
  | (_, l) :: ps => (first = true \/ starts_blank lit) /\ ((first = true /\ lit = []) \/ stops_blank lit) /\ set_off false l ps
  end.
Definition word (w : str) : Prop := w <> [] /\ Forall (fun c => is_space c = false) w.
(** reading back what was written *)
Theorem C89_round_trip : forall info indent lit parts ws before after,
  let line := line_of indent lit parts in
  line_ok indent lit parts -> parts <> [] -> Forall (fun p => default_var (info (fst p))) parts ->
  NoDup (map (fun p => vi_name (info (fst p))) parts) -> set_off true lit parts ->
  lacks nl indent -> lacks nl lit -> Forall (fun p => lacks nl (snd p)) parts -> Forall word ws -> length ws = length parts ->
  exists ast, re_compile (line_regex info line) = Some ast /\
    exists m, In m (finditer ast (before ++ nl :: indent ++ fill lit parts ws ++ nl :: after)) /\ m_start m = length before /\
              m_caps m = combine (map (fun p => vi_name (info (fst p))) parts) ws.
Proof.
  intros info indent lit parts ws before after line Hok Hp Hdef HN Hso Hi Hl Hpl Hw Hlen.
  set (pcs := fix go (lit : str) (parts : list (str * str)) : list piece :=
     PLit lit :: match parts with [] => [] | (v, l) :: ps => PVar (Some (vi_name (info v))) [xword] :: go l ps end).
  assert (Hq : forall xs lit parts, Forall (fun p => default_var (info (fst p))) parts -> line_pieces info xs lit parts (pcs lit parts)).
  { clear. intros xs lit parts H. revert lit. induction H as [|[v l] ps (D1 & D2 & D3 & D4 & D5) _ IH]; intros lit; cbn [pcs]; [apply lp_end|]. cbn [fst] in *.
    assert (Hni : vi_name (info v) <> $"ignore") by (intros K; apply D5; left; congruence).
    apply lp_var; [exact Hni| |exact D3|exact D4| |apply IH].
    - unfold deletes. rewrite D2, Bool.orb_false_r. apply Bool.andb_false_iff. right. unfold in_strs. cbn [existsb]. rewrite Bool.orb_false_r.
      apply Bool.orb_false_iff. split; apply DictFacts.str_eqb_neq; intros K; apply D5; rewrite K; cbn; auto.
    - rewrite D1. repeat constructor. }
  assert (Hn : forall lit parts, names_of (pcs lit parts) = map (fun p => vi_name (info (fst p))) parts).
  { clear. intros lit parts. revert lit. induction parts as [|[v l] ps IH]; intros lit; [reflexivity|]. cbn [pcs map fst]. change (names_of (PLit lit :: PVar (Some (vi_name (info v))) [xword] :: pcs l ps)) with (vi_name (info v) :: names_of (pcs l ps)). now rewrite IH. }
  assert (H1 : forall lit parts, lacks nl lit -> Forall (fun p => lacks nl (snd p)) parts -> one_line (pcs lit parts)).
  { clear. intros lit parts Hl H. apply one_line_vars. revert lit Hl. induction H as [|[v l] ps Hl _ IH]; intros lit Hlit; cbn [pcs]; (constructor; [exact Hlit|]); [constructor|].
    constructor; [reflexivity|]. apply IH, Hl. }
  assert (Hsp : forall lit parts first, set_off first lit parts -> spaced (negb first) (pcs lit parts)).
  { clear. intros lit parts. revert lit. induction parts as [|[v l] ps IH]; intros lit first H; cbn [pcs set_off] in *.
    - apply sp_end. intros Hf. destruct H as [->|H]; [discriminate|exact H].
    - destruct H as (H1 & H2 & H3). apply sp_var.
      + intros Hf. destruct H1 as [->|H1]; [discriminate|exact H1].
      + destruct H2 as [[_ ->]|H2]; auto.
      + apply word_like_spec. reflexivity.
      + exact (IH l false H3). }
  assert (Hr : forall xs xd lit parts ws s, length ws = length parts -> Forall word ws -> reads xs xd (pcs lit parts) (fill lit parts ws ++ s) s (combine (map (fun p => vi_name (info (fst p))) parts) ws)).
  { clear. intros xs xd lit parts. revert lit. induction parts as [|[v l] ps IH]; intros lit ws s Hlen Hw; cbn [pcs fill map combine fst].
    - rewrite app_nil_r. apply rd_lit; [reflexivity|apply rd_nil].
    - destruct ws as [|w ws]; [discriminate|]. injection Hlen as Hlen. inversion Hw as [|? ? [W1 W2] Hws]; subst. rewrite <- app_assoc. apply rd_lit; [reflexivity|].
      rewrite <- app_assoc. cbn [combine]. apply (rd_var xs xd (Some (vi_name (info v))) [xword] xword); [now left| |now apply IH].
      unfold xword. cbn [rel]. exists (fill l ps ws ++ s), []. split; [|split; reflexivity]. apply rel_plus_set. split; [reflexivity|]. exists w. split; [exact W1|]. split; [reflexivity|].
      eapply Forall_impl; [|exact W2]. intros c Hc. unfold set_match. cbn [existsb citem_match xorb]. rewrite Hc. reflexivity. }
  destruct (C89_values info indent lit parts (pcs lit parts) Hok Hp (Hq _ _ _ Hdef)) as (ast & E & H).
  { rewrite Hn. exact HN. } { exact Hi. } { now apply H1. } { exact (Hsp lit parts true Hso). }
  exists ast. split; [exact E|]. apply (H _ before _ (nl :: after) _ eq_refl).
  exists (fill lit parts ws ++ nl :: after), []. split; [reflexivity|]. split; [now apply Hr|]. split; [constructor|]. exists after. now left.
Qed.
Print Assumptions C89_round_trip.
Example C89_ex : let parts := [($" name ", $" is "); ($" state ", [])] in let line := line_of $" " $"port " parts in
  line = $" port {{ name }} is {{ state }}" /\ line_ok $" " $"port " parts /\ set_off true $"port " parts /\
  Forall (fun p => default_var (xinfo (fst p))) parts /\ fill $"port " parts [$"Gi0/1"; $"up"] = $"port Gi0/1 is up" /\
  match re_compile (line_regex xinfo line) with Some ast => map m_caps (finditer ast (nl :: $" port Gi0/1 is up" ++ [nl])) = [[($"name", $"Gi0/1"); ($"state", $"up")]] | None => False end.
Proof.
  cbv zeta. split; [reflexivity|]. split; [split; [repeat constructor|split; [split; [reflexivity|split; [split; [discriminate|reflexivity]|split; [reflexivity|split; [split; [discriminate|reflexivity]|reflexivity]]]]|reflexivity]]|].
  split. { split; [now left|]. split; [right; exists $"port", " "%char; now split|]. split; [right; exists " "%char, $"is "; now split|]. split; [right; exists $" is", " "%char; now split|]. right. now left. }
  split. { repeat (apply Forall_cons || apply Forall_nil); (split; [reflexivity|split; [reflexivity|split; [intros K; vm_compute in K; discriminate|split; [vm_compute; repeat constructor|vm_compute; intuition discriminate]]]]). }
  split; [reflexivity|]. vm_compute. reflexivity.
Qed.

(** ** C90 *)
(** a line whose variables share a name is rejected when the template is loaded; every other line of this kind compiles *)
Theorem C90_distinct_names : forall info indent lit parts q,
  let line := line_of indent lit parts in
  line_ok indent lit parts -> parts <> [] -> line_pieces info (exact_space_of line) lit parts q ->
  (re_compile (line_regex info line) <> None <-> NoDup (names_of q)).
Proof.
  intros info indent lit parts q line Hok Hp Hq. destruct (line_regex_reads info indent lit parts q Hok Hp Hq) as [H1 H2]. fold line in H1, H2. split.
  - intros H. destruct (ListDec.NoDup_dec (list_eq_dec ascii_dec) (names_of q)) as [HN|HN]; [exact HN|]. now apply H2 in HN.
  - intros HN. destruct (H1 HN) as (ast & -> & _). discriminate.
Qed.
Print Assumptions C90_distinct_names.
Example C90_ex : let info v := {| vi_name := sanitize (strip v); vi_ignore := None; vi_set := false; vi_res := [] |} in
  re_compile (line_regex info $"{{ a-b }} {{ a_b }}") = None /\ re_compile (line_regex info $"{{ a-b }} {{ a_c }}") <> None.
Proof. split; [vm_compute; reflexivity|]. intros K. vm_compute in K. discriminate. Qed.
