(** * AttrFacts: what the text of a function or variable is read as (get_attributes). *)
From Coq Require Import Lia.
From Verif Require Import PyBase DictFacts StrFacts Regex SpecRegex RegexFacts LitFacts Results Template Attributes FormRegex LineFacts.
Local Open Scope string_scope.
Local Open Scope list_scope.

Definition rest_re : re := RSeq (ropt rs) (RSeq (ropt (RSeq (rchar "(") (RSeq (RGroup $"options" (RStar true RAny)) (rchar ")")))) at_end).
Lemma item_re_eq : item_re = RSeq (RGroup $"name" (rplus_lazy rS)) rest_re.
Proof. reflexivity. Qed.
(** a character of a name *)
Definition name_c (c : ascii) : Prop := is_space c = false /\ c <> "("%char.
Lemma mt_at_end s c k : mt at_end s c k = match s with [] => k s c | _ => None end.
Proof. unfold at_end. destruct s as [|x s]; cbn [mt]; [reflexivity|]. unfold set_match. cbn [existsb xorb]. reflexivity. Qed.
Lemma mt_alt a b s c k : mt (RAlt a b) s c k = match mt a s c k with Some x => Some x | None => mt b s c k end.
Proof. reflexivity. Qed.
Lemma mt_eps s c k : mt REps s c k = k s c.
Proof. reflexivity. Qed.
Lemma rest_nil c k : mt rest_re [] c k = k [] c.
Proof. unfold rest_re, ropt, rs, rchar. rewrite mt_seq, mt_alt, mt_set, mt_eps, mt_seq, mt_alt, mt_seq, mt_set, mt_eps, mt_at_end. reflexivity. Qed.
Lemma rs_no x u c k : is_space x = false -> mt rs (x :: u) c k = None.
Proof. intros H. unfold rs. rewrite mt_set. unfold set_match. cbn [existsb citem_match xorb]. rewrite H. reflexivity. Qed.
Lemma rest_name x u c k : name_c x -> mt rest_re (x :: u) c k = None.
Proof.
  intros [Hs Hp]. unfold rest_re, ropt. rewrite mt_seq, mt_alt, (rs_no _ _ _ _ Hs), mt_eps, mt_seq, mt_alt, mt_seq. unfold rchar at 1. rewrite mt_set.
  unfold set_match. cbn [existsb citem_match xorb]. assert (E : Ascii.eqb "(" x = false) by (apply Ascii.eqb_neq; congruence). rewrite E. cbn [orb]. rewrite mt_eps, mt_at_end. reflexivity.
Qed.
Lemma star_any (k : str -> caps -> option (str * caps)) c : k [] c = None -> k $")" c <> None -> forall o n, lacks nl o -> length (o ++ $")") <= n ->
  star_mt RAny true k n (o ++ $")") c = k $")" c.
Proof.
  intros H0 H1. induction o as [|x o IH]; intros n Ho Hn; cbn [app length] in Hn.
  - destruct n as [|n]; [cbn in Hn; lia|]. change ([] ++ $")") with [")"%char] in *. change $")" with [")"%char] in *. cbn [star_mt]. change (mt RAny [")"%char] c ?k) with (k [] c). cbv beta. change (Nat.ltb (length (@nil ascii)) (length [")"%char])) with true. cbn match.
    destruct n; cbn [star_mt mt]; rewrite H0; reflexivity.
  - destruct n as [|n]; [lia|]. cbn [app star_mt].
    assert (E : Ascii.eqb x nl = false) by (apply Ascii.eqb_neq; intros ->; apply Ho; now left).
    change (mt RAny (x :: o ++ $")") c ?k) with (if Ascii.eqb x nl then None else k (o ++ $")") c). cbv beta. rewrite E.
    assert (L : Nat.ltb (length (o ++ $")")) (length (x :: o ++ $")")) = true) by (apply Nat.ltb_lt; cbn [length]; lia). rewrite L.
    assert (IH' : star_mt RAny true k n (o ++ $")") c = k $")" c) by (apply IH; [intros K; apply Ho; now right|lia]). rewrite IH'. destruct (k $")" c); [reflexivity|congruence].
Qed.
Lemma rchar_same x s c k : mt (rchar x) (x :: s) c k = k s c.
Proof. unfold rchar. rewrite mt_set. unfold set_match. cbn [existsb citem_match xorb]. rewrite Ascii.eqb_refl. reflexivity. Qed.
Lemma rest_call o c (k : str -> caps -> option (str * caps)) : lacks nl o -> (forall s c, k s c <> None) ->
  mt rest_re ("("%char :: o ++ $")") c k = k [] (cap_set $"options" o c).
Proof.
  intros Ho Hk. unfold rest_re, ropt. rewrite mt_seq, mt_alt, (rs_no "("%char _ _ _ eq_refl), mt_eps, mt_seq, mt_alt, mt_seq, rchar_same, mt_seq.
  change (mt (RGroup $"options" (RStar true RAny)) ?s ?c ?k) with (mt (RStar true RAny) s c (fun s' c' => k s' (cap_set $"options" (firstn (length s - length s') s) c'))).
  cbv beta. rewrite mt_star. set (k1 := fun s' (c' : caps) => _).
  assert (E0 : k1 [] c = None) by (unfold k1, rchar; now rewrite mt_set).
  assert (E1 : k1 $")" c = k [] (cap_set $"options" o c)).
  { unfold k1. change $")" with [")"%char]. rewrite rchar_same, mt_at_end. f_equal. f_equal. rewrite app_length. cbn [length]. replace (length o + 1 - 1) with (length o) by lia.
    rewrite firstn_app, firstn_all, Nat.sub_diag, firstn_O. now rewrite app_nil_r. }
  rewrite star_any; [rewrite E1|exact E0|rewrite E1; apply Hk|exact Ho|lia].
  destruct (k [] (cap_set $"options" o c)) eqn:E; [reflexivity|now apply Hk in E].
Qed.
Lemma star_name (k : str -> caps -> option (str * caps)) c t : k t c <> None -> forall n m, Forall name_c n -> length (n ++ t) <= m ->
  (forall x u, name_c x -> k (x :: u) c = None) -> star_mt rS false k m (n ++ t) c = k t c.
Proof.
  intros Ht. induction n as [|x n IH]; intros m Hn Hm Hk; cbn [app length] in *.
  - destruct m; cbn [star_mt]; destruct (k t c); congruence.
  - destruct m as [|m]; [lia|]. inversion Hn as [|? ? Hx Hn']; subst. cbn [star_mt]. rewrite (Hk x _ Hx). unfold rS. rewrite mt_set. unfold set_match. cbn [existsb citem_match xorb].
    rewrite (proj1 Hx). cbn [negb orb]. assert (L : Nat.ltb (length (n ++ t)) (length (x :: n ++ t)) = true) by (apply Nat.ltb_lt; cbn [length]; lia). rewrite L. fold rS.
    apply IH; [exact Hn'|lia|exact Hk].
Qed.
Lemma item_match n t c' : n <> [] -> Forall name_c n -> (forall c k, (forall s c, k s c <> None) -> mt rest_re t c k = k [] (c' c)) ->
  rmatch item_re (n ++ t) = Some ([], c' [($"name", n)]).
Proof.
  intros Hn Hf Ht. destruct n as [|x n]; [congruence|]. inversion Hf as [|? ? Hx Hf']; subst. unfold rmatch. rewrite item_re_eq, mt_seq.
  change (mt (RGroup $"name" (rplus_lazy rS)) ?s ?c ?k) with (mt (rplus_lazy rS) s c (fun s' c' => k s' (cap_set $"name" (firstn (length s - length s') s) c'))).
  cbv beta. unfold rplus_lazy. rewrite mt_seq. unfold rS at 1. cbn [app]. rewrite mt_set. unfold set_match. cbn [existsb citem_match xorb]. rewrite (proj1 Hx). cbn [negb orb].
  rewrite mt_star. set (k1 := fun s' (c' : caps) => _).
  assert (E1 : k1 t [] = Some ([], c' [($"name", x :: n)])).
  { unfold k1. rewrite Ht by discriminate. f_equal. f_equal. f_equal. cbn [cap_set]. f_equal. f_equal. rewrite app_comm_cons, app_length. replace (length (x :: n) + length t - length t) with (length (x :: n)) by lia.
    rewrite firstn_app, firstn_all, Nat.sub_diag, firstn_O. now rewrite app_nil_r. }
  rewrite star_name; [exact E1|rewrite E1; discriminate|exact Hf'|lia|]. intros y u Hy. unfold k1. now apply rest_name.
Qed.
Theorem item_plain n : n <> [] -> Forall name_c n -> rmatch item_re n = Some ([], [($"name", n)]).
Proof. intros Hn Hf. rewrite <- (app_nil_r n) at 1. apply (item_match n [] (fun c => c) Hn Hf). intros c k _. apply rest_nil. Qed.
Theorem item_call n o : n <> [] -> Forall name_c n -> lacks nl o -> rmatch item_re (n ++ "("%char :: o ++ $")") = Some ([], [($"name", n); ($"options", o)]).
Proof. intros Hn Hf Ho. apply (item_match n ("("%char :: o ++ $")") (cap_set $"options" o) Hn Hf). intros c k Hk. now apply rest_call. Qed.

(** ** one item *)
Lemma get_plain n : n <> [] -> Forall name_c n -> get_item n = Ok {| at_name := n; at_args := []; at_kwargs := [] |}.
Proof. intros Hn Hf. unfold get_item. rewrite item_plain by assumption. reflexivity. Qed.
Lemma get_call n o : n <> [] -> Forall name_c n -> lacks nl o ->
  get_item (n ++ "("%char :: o ++ $")") = match o with [] => Ok {| at_name := n; at_args := []; at_kwargs := [] |}
    | _ => match eval_args o with Some a => Ok {| at_name := n; at_args := ca_args a; at_kwargs := ca_kwargs a |} | None => Raise SystemExit end end.
Proof. intros Hn Hf Ho. unfold get_item. rewrite item_call by assumption. destruct o; reflexivity. Qed.
Lemma items_one v : lacks "|" v -> strip v <> [] -> items_in v = [strip v].
Proof. intros Hb Hs. unfold items_in. change bar with ["|"%char]. rewrite (split_lacks "|"%char v Hb). cbn [map filter]. destruct (strip v); [congruence|reflexivity]. Qed.
Lemma attributes_name v : lacks "|" v -> strip v <> [] -> Forall name_c (strip v) -> get_attributes v = Ok [{| at_name := strip v; at_args := []; at_kwargs := [] |}].
Proof. intros Hb Hs Hn. unfold get_attributes. rewrite items_one by assumption. cbn [rmap]. rewrite get_plain by assumption. reflexivity. Qed.
