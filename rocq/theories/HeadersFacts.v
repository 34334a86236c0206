(** * HeadersFacts: the expression of a table row (for C122). *)
From Coq Require Import Lia.
From Verif Require Import PyBase DictFacts StrFacts Regex SpecRegex RegexFacts LitFacts Template FormRegex SpecLine SpecForm ReadFacts LineFacts LineRegex FindFacts FindLines Attributes AttrFacts MatchVar SpecVariable SpecHeaders.
Local Open Scope string_scope.
Local Open Scope list_scope.

(** ** one cell *)
Inductive cell_kind := CFixed (w : nat) | CSome (w : nat) | COpt (w : nat) | CRest1 | CRest0.
Definition quant_text (k : cell_kind) : str :=
  match k with
  | CFixed w => $"{" ++ str_of_N (N.of_nat w) ++ $"}"
  | CSome w => $"{1," ++ str_of_N (N.of_nat w) ++ $"}"
  | COpt w => $"{0," ++ str_of_N (N.of_nat w) ++ $"}"
  | CRest1 => $"{1,}"
  | CRest0 => $"*"
  end.
Definition quant_re (k : cell_kind) : re :=
  match k with
  | CFixed w => mk_rep true RAny w (Some w)
  | CSome w => mk_rep true RAny 1 (Some w)
  | COpt w => mk_rep true RAny 0 (Some w)
  | CRest1 => mk_rep true RAny 1 None
  | CRest0 => mk_rep true RAny 0 None
  end.
Definition cell_text (c : str * cell_kind) : str := $"(?P<" ++ fst c ++ $">." ++ quant_text (snd c) ++ $")".
Definition cell_re (c : str * cell_kind) : re := RGroup (fst c) (RSeq (quant_re (snd c)) REps).
Lemma prun_brace ds : Forall (fun c => is_dec c = true) ds -> forall lo q b al st ns,
  prun ds {| p_mode := MBrace lo; p_q := q; p_branch := b; p_alts := al; p_stack := st; p_names := ns |} =
  Some {| p_mode := MBrace (lo ++ ds); p_q := q; p_branch := b; p_alts := al; p_stack := st; p_names := ns |}.
Proof.
  induction 1 as [|c ds Hc H IH]; intros lo q b al st ns; [now rewrite app_nil_r|]. cbn [prun]. unfold pstep. cbn [p_mode]. rewrite Hc. unfold with_mode. cbn [p_q p_branch p_alts p_stack p_names]. rewrite IH. now rewrite <- app_assoc.
Qed.
Lemma prun_brace2 ds : Forall (fun c => is_dec c = true) ds -> forall lo hi q b al st ns,
  prun ds {| p_mode := MBrace2 lo hi; p_q := q; p_branch := b; p_alts := al; p_stack := st; p_names := ns |} =
  Some {| p_mode := MBrace2 lo (hi ++ ds); p_q := q; p_branch := b; p_alts := al; p_stack := st; p_names := ns |}.
Proof.
  induction 1 as [|c ds Hc H IH]; intros lo hi q b al st ns; [now rewrite app_nil_r|]. cbn [prun]. unfold pstep. cbn [p_mode]. rewrite Hc. unfold with_mode. cbn [p_q p_branch p_alts p_stack p_names]. rewrite IH. now rewrite <- app_assoc.
Qed.
Lemma digits_nat w : nat_of_digits (str_of_N (N.of_nat w)) = w.
Proof. unfold nat_of_digits. rewrite digits_val_str. apply Nnat.Nat2N.id. Qed.
Lemma prun_quant k al st ns : exists q,
  prun (quant_text k) {| p_mode := MNormal; p_q := QAtom; p_branch := [RAny]; p_alts := al; p_stack := st; p_names := ns |} =
  Some {| p_mode := MNormal; p_q := q; p_branch := [quant_re k]; p_alts := al; p_stack := st; p_names := ns |}.
Proof.
  destruct k as [w|w|w| |]; cbn [quant_text quant_re]; try (eexists; reflexivity).
  - rewrite !prun_app. set (x := prun $"{" _). assert (E : x = Some {| p_mode := MBrace []; p_q := QAtom; p_branch := [RAny]; p_alts := al; p_stack := st; p_names := ns |}) by reflexivity. rewrite E. clear x E.
    rewrite prun_app, (prun_brace _ (str_of_N_dec _)). change $"}" with ["}"%char]. cbn [app prun]. unfold pstep. cbn [p_mode]. change (is_dec "}") with false. cbn iota. destruct (str_of_N (N.of_nat w)) as [|c ds] eqn:Es; [now apply str_of_N_ne in Es|].
    change (is_ch "}" ",") with false. change (is_ch "}" "}") with true. cbn iota. rewrite <- Es, digits_nat. eexists. reflexivity.
  - rewrite !prun_app. set (x := prun $"{1," _). assert (E : x = Some {| p_mode := MBrace2 $"1" []; p_q := QAtom; p_branch := [RAny]; p_alts := al; p_stack := st; p_names := ns |}) by reflexivity. rewrite E. clear x E.
    rewrite prun_app, (prun_brace2 _ (str_of_N_dec _)). change $"}" with ["}"%char]. cbn [app prun]. unfold pstep. cbn [p_mode]. change (is_dec "}") with false. cbn iota.
    change (is_ch "}" "}") with true. cbn iota. destruct (str_of_N (N.of_nat w)) as [|c ds] eqn:Es; [now apply str_of_N_ne in Es|]. rewrite <- Es, digits_nat. eexists. reflexivity.
  - rewrite !prun_app. set (x := prun $"{0," _). assert (E : x = Some {| p_mode := MBrace2 $"0" []; p_q := QAtom; p_branch := [RAny]; p_alts := al; p_stack := st; p_names := ns |}) by reflexivity. rewrite E. clear x E.
    rewrite prun_app, (prun_brace2 _ (str_of_N_dec _)). change $"}" with ["}"%char]. cbn [app prun]. unfold pstep. cbn [p_mode]. change (is_dec "}") with false. cbn iota.
    change (is_ch "}" "}") with true. cbn iota. destruct (str_of_N (N.of_nat w)) as [|c ds] eqn:Es; [now apply str_of_N_ne in Es|]. rewrite <- Es, digits_nat. eexists. reflexivity.
Qed.
Lemma emits_cell c : fst c <> [] -> word_text (fst c) -> emits (cell_text c) [fst c] [cell_re c].
Proof.
  destruct c as [n k]. cbn [fst]. intros Hn Hw s Hm Hf. destruct s as [m q b al st ns]. cbn [p_mode p_names] in *. subst m. unfold cell_text, cell_re. cbn [fst snd].
  rewrite prun_app. set (x := prun $"(?P<" _). assert (E : x = Some {| p_mode := MName []; p_q := q; p_branch := b; p_alts := al; p_stack := st; p_names := ns |}) by reflexivity. rewrite E. clear x E.
  rewrite prun_app, (prun_name n Hw), app_nil_r. change $">." with [">"%char; "."%char]. cbn [app prun]. unfold pstep at 1. cbn [p_mode]. change (is_ch ">" ">") with true. cbn iota.
  destruct (rev n) as [|y r] eqn:Er; [apply (Logic.f_equal (@rev _)) in Er; rewrite rev_involutive in Er; now subst|]. rewrite <- Er, rev_involutive. cbn [p_names].
  assert (Ein : in_strs n ns = false). { apply Bool.not_true_is_false. intros K. apply existsb_exists in K as (z & Hz & Ez). apply str_eqb_eq in Ez. subst z. exact (Hf n (or_introl eq_refl) Hz). }
  rewrite Ein. unfold pstep at 1. cbn [p_mode]. set (x := step_normal _ "."). 
  assert (E : x = Some {| p_mode := MNormal; p_q := QAtom; p_branch := [RAny]; p_alts := []; p_stack := (OGroup n, b, al) :: st; p_names := n :: ns |}) by reflexivity. rewrite E. clear x E.
  rewrite prun_app. destruct (prun_quant k [] ((OGroup n, b, al) :: st) (n :: ns)) as [q' ->]. eexists. reflexivity.
Qed.
Lemma emits_cells cs : Forall (fun c => fst c <> [] /\ word_text (fst c)) cs -> NoDup (map fst cs) -> emits (concat (map cell_text cs)) (map fst cs) (map cell_re cs).
Proof.
  induction 1 as [|c cs [Hc Hw] H IH]; intros Hd; [apply emits_nil|]. cbn [map concat] in *. inversion Hd as [|? ? Hi Hd']; subst. change (fst c :: map fst cs) with ([fst c] ++ map fst cs). change (cell_re c :: map cell_re cs) with ([cell_re c] ++ map cell_re cs).
  apply emits_app; [|now apply emits_cell|auto]. intros n [<-|[]]. exact Hi.
Qed.
Lemma cells_clash cs X : Forall (fun c => fst c <> [] /\ word_text (fst c)) cs -> forall s, p_mode s = MNormal -> NoDup (p_names s) -> ~ NoDup (map fst cs ++ p_names s) -> prun (concat (map cell_text cs) ++ X) s = None.
Proof.
  induction 1 as [|c cs [Hc Hw] H IH]; intros s Hm Hn Hd; [cbn [map app] in Hd; contradiction|]. cbn [map concat]. rewrite <- app_assoc.
  destruct (in_dec (list_eq_dec ascii_dec) (fst c) (p_names s)) as [Hi|Hi].
  - unfold cell_text. rewrite <- !app_assoc. change ($">." ++ quant_text (snd c) ++ $")" ++ concat (map cell_text cs) ++ X) with (">"%char :: "."%char :: quant_text (snd c) ++ $")" ++ concat (map cell_text cs) ++ X). now apply prun_named_clash.
  - rewrite prun_app. destruct (emits_cell c Hc Hw s Hm) as [q E]; [intros n [<-|[]]; exact Hi|]. rewrite E. apply IH; [reflexivity| |]; cbn [p_names rev app].
    + now constructor.
    + intros K. apply Hd. cbn [map app]. apply NoDup_Add with (l := map fst cs ++ p_names s) (a := fst c); [apply Add_head|]. apply NoDup_remove in K. destruct K as [K1 K2]. split; assumption.
Qed.

(** ** what it matches *)
Definition row_re (cs : list (str * cell_kind)) : re := fold_right RSeq REps ([rchar nl] ++ map cell_re cs ++ [eol_re]).
Definition row_text (cs : list (str * cell_kind)) : str := $"\n" ++ concat (map cell_text cs) ++ $"(?=\n|\r\n)".
Lemma emits_eol : emits $"(?=\n|\r\n)" [] [eol_re].
Proof. intros s Hm _. eat s Hm. Qed.
Lemma row_compile cs : Forall (fun c => fst c <> [] /\ word_text (fst c)) cs -> NoDup (map fst cs) -> re_compile (row_text cs) = Some (row_re cs).
Proof.
  intros H Hd. apply emits_compile with (ns := map fst cs ++ []). unfold row_text. apply emits_app0'; [apply emits_nl|]. apply emits_app; [intros n _ []|now apply emits_cells|apply emits_eol].
Qed.
Lemma row_clash cs : Forall (fun c => fst c <> [] /\ word_text (fst c)) cs -> ~ NoDup (map fst cs) -> re_compile (row_text cs) = None.
Proof.
  intros H Hd. unfold re_compile, row_text. rewrite prun_app. destruct (emits_nl pst0 eq_refl) as [q E]; [intros n []|]. rewrite E. rewrite cells_clash; [reflexivity|exact H|reflexivity|constructor|].
  cbn [p_names pst0 rev app]. now rewrite app_nil_r.
Qed.

(** a match stays on its line *)
Definition inline (r : re) : Prop := forall s c s' c', rel r s c s' c' -> exists w, s = w ++ s' /\ lacks nl w.
Lemma lacks_nil x : lacks x []. Proof. intros []. Qed.
Lemma inline_app (w v : str) : lacks nl w -> lacks nl v -> lacks nl (w ++ v).
Proof. intros H K J. apply in_app_or in J. destruct J; auto. Qed.
Lemma inline_eps : inline REps. Proof. intros s c s' c' [-> ->]. exists []. split; [reflexivity|apply lacks_nil]. Qed.
Lemma inline_any : inline RAny. Proof. intros s c s' c' (x & -> & Hx & ->). exists [x]. split; [reflexivity|]. intros [K|[]]. congruence. Qed.
Lemma inline_seq a b : inline a -> inline b -> inline (RSeq a b).
Proof. intros Ha Hb s c s' c' (s1 & c1 & H1 & H2). apply Ha in H1 as (w & -> & Hw). apply Hb in H2 as (v & -> & Hv). exists (w ++ v). rewrite <- app_assoc. split; [reflexivity|now apply inline_app]. Qed.
Lemma inline_alt a b : inline a -> inline b -> inline (RAlt a b).
Proof. intros Ha Hb s c s' c' [H|H]; [now apply Ha in H|now apply Hb in H]. Qed.
Lemma inline_star g r : inline r -> inline (RStar g r).
Proof. intros Hr s c s' c' H. cbn [rel] in H. induction H as [s c|s c s1 c1 s2 c2 H1 _ _ (v & -> & Hv)]; [exists []; split; [reflexivity|apply lacks_nil]|]. apply Hr in H1 as (w & -> & Hw). exists (w ++ v). rewrite <- app_assoc. split; [reflexivity|now apply inline_app]. Qed.
Lemma inline_copies n r t : inline r -> inline t -> inline (copies n r t).
Proof. intros Hr Ht. induction n as [|n IH]; [exact Ht|]. cbn [copies]. now apply inline_seq. Qed.
Lemma inline_opts g n r : inline r -> inline (opts g n r).
Proof. intros Hr. induction n as [|n IH]; [apply inline_eps|]. cbn [opts]. destruct g; apply inline_alt; try apply inline_eps; now apply inline_seq. Qed.
Lemma inline_cell c : inline (cell_re c).
Proof.
  intros s cc s' cc' (c1 & w & H & -> & ->). exists w. split; [reflexivity|]. assert (Q : inline (RSeq (quant_re (snd c)) REps)).
  { apply inline_seq; [|apply inline_eps]. destruct (snd c); unfold quant_re, mk_rep; apply inline_copies; try apply inline_any; try (apply inline_opts, inline_any); apply inline_star, inline_any. }
  apply Q in H as (w' & E & Hw). apply app_inv_tail in E. now subst.
Qed.
Lemma inline_cells cs X s c s' c' : rel (fold_right RSeq REps (map cell_re cs ++ X)) s c s' c' -> exists w s1 c1, s = w ++ s1 /\ lacks nl w /\ rel (fold_right RSeq REps X) s1 c1 s' c'.
Proof.
  revert s c. induction cs as [|k cs IH]; intros s c H; [exists [], s, c; split; [reflexivity|]; split; [apply lacks_nil|exact H]|]. cbn [map app fold_right] in H. destruct H as (s1 & c1 & H1 & H2). apply inline_cell in H1 as (w & -> & Hw). apply IH in H2 as (v & s2 & c2 & -> & Hv & H2).
  exists (w ++ v), s2, c2. rewrite <- app_assoc. split; [reflexivity|]. split; [now apply inline_app|exact H2].
Qed.
Lemma row_inline cs s s' c : rmatch (row_re cs) s = Some (s', c) -> exists w, s = nl :: w ++ s' /\ lacks nl w /\ (exists u, s' = nl :: u \/ s' = chr 13 :: nl :: u).
Proof.
  intros H. apply rmatch_sound in H. unfold row_re in H. cbn [app fold_right] in H. destruct H as (s1 & c1 & H1 & H2). apply rel_char in H1 as [-> ->]. apply inline_cells in H2 as (w & s2 & c2 & -> & Hw & (s3 & c3 & (-> & s4 & Ha) & -> & ->)).
  exists w. split; [reflexivity|]. split; [exact Hw|].
  destruct Ha as [(s5 & c5 & H & -> & ->)|(s5 & c5 & H & s6 & c6 & H2 & -> & ->)]; apply rel_char in H as [-> ->]; [eauto|]. apply rel_char in H2 as [-> ->]. eauto.
Qed.

(** ** the cells *)
Notation K := (str -> caps -> option (str * caps)).
Lemma mt_any s c k : mt RAny s c k = match s with x :: t => if Ascii.eqb x nl then None else k t c | [] => None end.
Proof. reflexivity. Qed.
Lemma not_nl x (s : str) : lacks nl (x :: s) -> Ascii.eqb x nl = false /\ lacks nl s.
Proof. intros H. split; [apply Ascii.eqb_neq; intros ->; apply H; now left|intros J; apply H; now right]. Qed.
Lemma mt_copies t c (k : K) : forall a s, lacks nl a -> mt (copies (length a) RAny t) (a ++ s) c k = mt t s c k.
Proof. induction a as [|x a IH]; intros s Ha; [reflexivity|]. apply not_nl in Ha as [Hx Ha]. cbn [length copies app]. rewrite mt_seq, mt_any, Hx. now apply IH. Qed.
Lemma mt_copies_short t c (k : K) u : forall n a, length a < n -> lacks nl a -> mt (copies n RAny t) (a ++ nl :: u) c k = None.
Proof.
  induction n as [|n IH]; intros a Hn Ha; [lia|]. cbn [copies]. rewrite mt_seq, mt_any. destruct a as [|x a]; [reflexivity|]. apply not_nl in Ha as [Hx Ha]. cbn [app]. rewrite Hx. apply IH; [cbn in Hn; lia|exact Ha].
Qed.
Lemma mt_opts c (k : K) u : forall n a, lacks nl a -> k (skipn n a ++ nl :: u) c <> None -> mt (opts true n RAny) (a ++ nl :: u) c k = k (skipn n a ++ nl :: u) c.
Proof.
  induction n as [|n IH]; intros a Ha Hk; [reflexivity|]. cbn [opts]. rewrite mt_alt, mt_seq, mt_any. destruct a as [|x a]; [reflexivity|]. apply not_nl in Ha as [Hx Ha]. cbn [app skipn] in *. rewrite Hx, IH by assumption. destruct (k (skipn n a ++ nl :: u) c); [reflexivity|congruence].
Qed.
Lemma star_all c (k : K) u : k (nl :: u) c <> None -> forall a n, lacks nl a -> length (a ++ nl :: u) <= n -> star_mt RAny true k n (a ++ nl :: u) c = k (nl :: u) c.
Proof.
  intros Hk. induction a as [|x a IH]; intros n Ha Hn.
  - cbn [app]. destruct n as [|n]; cbn [star_mt]; reflexivity.
  - apply not_nl in Ha as [Hx Ha]. cbn [app length] in Hn. destruct n as [|n]; [lia|]. cbn [app star_mt]. rewrite mt_any, Hx.
    assert (E : Nat.ltb (length (a ++ nl :: u)) (length (x :: a ++ nl :: u)) = true) by (apply Nat.ltb_lt; cbn; lia). rewrite E, IH by (try exact Ha; lia). destruct (k (nl :: u) c); [reflexivity|congruence].
Qed.
Lemma mt_group n r s c (k : K) : mt (RGroup n r) s c k = mt r s c (fun s' c' => k s' (cap_set n (firstn (length s - length s') s) c')).
Proof. reflexivity. Qed.
Lemma mt_cell n q s c (k : K) : mt (cell_re (n, q)) s c k = mt (quant_re q) s c (fun s' c' => k s' (cap_set n (firstn (length s - length s') s) c')).
Proof. unfold cell_re. cbn [fst snd]. rewrite mt_group, mt_seq. reflexivity. Qed.
Lemma taken {A} (a b : list A) : firstn (length (a ++ b) - length b) (a ++ b) = a.
Proof. rewrite app_length. replace (length a + length b - length b) with (length a) by lia. rewrite firstn_app, Nat.sub_diag, firstn_O, app_nil_r. now rewrite firstn_all. Qed.
Lemma lacks_skipn (s : str) n : lacks nl s -> lacks nl (skipn n s).
Proof. intros H J. apply H. rewrite <- (firstn_skipn n s). apply in_or_app. now right. Qed.
Lemma lacks_firstn (s : str) n : lacks nl s -> lacks nl (firstn n s).
Proof. intros H J. apply H. rewrite <- (firstn_skipn n s). apply in_or_app. now left. Qed.
Lemma taken_n w (s u : str) : firstn (length (s ++ u) - length (skipn w s ++ u)) (s ++ u) = firstn w s.
Proof. rewrite <- (firstn_skipn w s) at 1 3. rewrite <- app_assoc. apply taken. Qed.
Section Line.
Variables (u : str).
Definition rest : str := nl :: u.
Definition kend : K := fun s c => Some (s, c).
Definition mts (ps : list re) (s : str) (c : caps) : option (str * caps) := mt (fold_right RSeq REps ps) s c kend.
Lemma mts_cons p ps s c : mts (p :: ps) s c = mt p s c (mts ps).
Proof. reflexivity. Qed.
Lemma eol_here c : mts [eol_re] rest c = Some (rest, c).
Proof. reflexivity. Qed.
(** a fixed cell *)
Lemma fixed_cell n w s c ps : lacks nl s -> mts (cell_re (n, CFixed w) :: ps) (s ++ rest) c = if Nat.ltb (length s) w then None else mts ps (skipn w s ++ rest) (cap_set n (firstn w s) c).
Proof.
  intros Hs. rewrite mts_cons, mt_cell. cbn [quant_re]. unfold mk_rep. rewrite Nat.sub_diag. cbn [opts]. destruct (Nat.ltb (length s) w) eqn:E.
  - apply Nat.ltb_lt in E. unfold rest. now apply mt_copies_short.
  - apply Nat.ltb_ge in E. assert (L : w = length (firstn w s)) by (rewrite firstn_length; lia).
    rewrite L at 1. rewrite <- (firstn_skipn w s) at 2. rewrite <- app_assoc, mt_copies by (now apply lacks_firstn). rewrite mt_eps. now rewrite taken_n.
Qed.
Lemma opt_cell n w s c ps : lacks nl s -> mts ps (skipn w s ++ rest) (cap_set n (firstn w s) c) <> None ->
  mts (cell_re (n, COpt w) :: ps) (s ++ rest) c = mts ps (skipn w s ++ rest) (cap_set n (firstn w s) c).
Proof.
  intros Hs Hk. rewrite mts_cons, mt_cell. cbn [quant_re]. unfold mk_rep. rewrite Nat.sub_0_r. cbn [copies]. unfold rest in *. rewrite mt_opts; [|exact Hs|]; rewrite taken_n; [reflexivity|exact Hk].
Qed.
Lemma some_cell n w s c ps : lacks nl s -> 1 <= w -> (s <> [] -> mts ps (skipn w s ++ rest) (cap_set n (firstn w s) c) <> None) ->
  mts (cell_re (n, CSome w) :: ps) (s ++ rest) c = match s with [] => None | _ => mts ps (skipn w s ++ rest) (cap_set n (firstn w s) c) end.
Proof.
  intros Hs Hw Hk. rewrite mts_cons, mt_cell. cbn [quant_re]. unfold mk_rep. cbn [copies]. rewrite mt_seq, mt_any. destruct s as [|x s]; [reflexivity|]. specialize (Hk ltac:(discriminate)). pose proof Hs as Hs'. apply not_nl in Hs as [Hx Hs]. cbn [app]. rewrite Hx.
  destruct w as [|w]; [lia|]. replace (S w - 1) with w by lia. change (x :: s ++ rest) with ((x :: s) ++ rest). change (skipn (S w) (x :: s)) with (skipn w s) in *.
  pose proof (taken_n (S w) (x :: s) rest) as E. change (skipn (S w) (x :: s)) with (skipn w s) in E. unfold rest in *. rewrite mt_opts; [|exact Hs|]; rewrite E; [reflexivity|exact Hk].
Qed.
Lemma rest0_cell n s c ps : lacks nl s -> mts ps rest (cap_set n s c) <> None -> mts (cell_re (n, CRest0) :: ps) (s ++ rest) c = mts ps rest (cap_set n s c).
Proof.
  intros Hs Hk. rewrite mts_cons, mt_cell. cbn [quant_re]. unfold mk_rep. cbn [copies]. rewrite mt_star. unfold rest in *. pose proof (taken s (nl :: u)) as E.
  rewrite star_all; [|rewrite E; exact Hk|exact Hs|lia]. now rewrite E.
Qed.
Lemma rest1_cell n s c ps : lacks nl s -> mts ps rest (cap_set n s c) <> None -> mts (cell_re (n, CRest1) :: ps) (s ++ rest) c = match s with [] => None | _ => mts ps rest (cap_set n s c) end.
Proof.
  intros Hs Hk. rewrite mts_cons, mt_cell. cbn [quant_re]. unfold mk_rep. cbn [copies]. rewrite mt_seq, mt_any. destruct s as [|x s]; [reflexivity|]. pose proof Hs as Hs'. apply not_nl in Hs as [Hx Hs]. cbn [app]. rewrite Hx. rewrite mt_star. unfold rest in *.
  pose proof (taken (x :: s) (nl :: u)) as E. cbn [app] in E. rewrite star_all; [|rewrite E; exact Hk|exact Hs|lia]. now rewrite E.
Qed.
(** ** rows: the cells of the columns, of which the first ones are fixed *)
Fixpoint optional (cols : list (str * nat)) : list (str * cell_kind) :=
  match cols with [] => [] | [(n, _)] => [(n, CRest0)] | (n, w) :: t => (n, COpt w) :: optional t end.
Fixpoint row (f : nat) (cols : list (str * nat)) : list (str * cell_kind) :=
  match cols with
  | [] => []
  | (n, w) :: t => match f with
                   | S f => (n, CFixed w) :: row f t
                   | O => match t with [] => [(n, CRest1)] | _ => (n, CSome w) :: optional t end
                   end
  end.
Definition fresh (c : caps) (cols : list (str * nat)) : Prop := NoDup (map fst c ++ map fst cols).
Lemma fresh_step n w c cols v : fresh c ((n, w) :: cols) -> cap_set n v c = c ++ [(n, v)] /\ fresh (c ++ [(n, v)]) cols.
Proof.
  unfold fresh. intros H. cbn [map fst] in H. split.
  - apply cap_set_new. apply NoDup_remove_2 in H. intros J. apply H. apply in_or_app. now left.
  - rewrite map_app. cbn [map fst]. now rewrite <- app_assoc.
Qed.
Definition filled (cols : list (str * nat)) (s : str) : caps := combine (map fst cols) (cells (map snd cols) s).
Lemma optional_ok : forall cols s c, cols <> [] -> fresh c cols -> lacks nl s -> mts (map cell_re (optional cols) ++ [eol_re]) (s ++ rest) c = Some (rest, c ++ filled cols s).
Proof.
  induction cols as [|[n w] cols IH]; intros s c Hne Hf Hs; [congruence|]. destruct cols as [|[n' w'] cols].
  - destruct (fresh_step n w c [] s Hf) as [E _]. cbn [optional map app]. rewrite rest0_cell, eol_here, E; [reflexivity|exact Hs|rewrite eol_here; discriminate].
  - destruct (fresh_step n w c _ (firstn w s) Hf) as [E Hf']. cbn [optional map app].
    change (mts (cell_re (n, COpt w) :: (map cell_re (optional ((n', w') :: cols)) ++ [eol_re])) (s ++ rest) c = Some (rest, c ++ filled ((n, w) :: (n', w') :: cols) s)).
    assert (R : mts (map cell_re (optional ((n', w') :: cols)) ++ [eol_re]) (skipn w s ++ rest) (cap_set n (firstn w s) c) = Some (rest, c ++ filled ((n, w) :: (n', w') :: cols) s)).
    { rewrite E, IH; [|discriminate|exact Hf'|now apply lacks_skipn]. unfold filled. cbn [map fst snd cells combine]. now rewrite <- app_assoc. }
    rewrite opt_cell; [exact R|exact Hs|rewrite R; discriminate].
Qed.
Lemma row_ok : forall f cols s c, f < length cols -> Forall (fun x => 1 <= snd x) cols -> fresh c cols -> lacks nl s ->
  mts (map cell_re (row f cols) ++ [eol_re]) (s ++ rest) c = if Nat.ltb (list_sum (firstn f (map snd cols))) (length s) then Some (rest, c ++ filled cols s) else None.
Proof.
  induction f as [|f IH]; intros cols s c Hl Hw Hf Hs; (destruct cols as [|[n w] cols]; [cbn in Hl; lia|]); cbn [row].
  - cbn [firstn list_sum fold_right map]. change (Nat.ltb 0 (length s)) with (match s with [] => false | _ => true end) || idtac.
    assert (E0 : Nat.ltb 0 (length s) = match s with [] => false | _ => true end) by (destruct s; reflexivity).
    inversion Hw as [|? ? Hw1 Hw2]; subst. cbn [snd] in Hw1. destruct cols as [|p cols].
    + destruct (fresh_step n w c [] s Hf) as [E _]. cbn [map app]. rewrite rest1_cell, eol_here, E; [|exact Hs|rewrite eol_here; discriminate]. unfold filled. cbn [map fst snd cells combine firstn list_sum fold_right]. rewrite E0. now destruct s.
    + destruct (fresh_step n w c _ (firstn w s) Hf) as [E Hf']. cbn [map app].
      change (mts (cell_re (n, CSome w) :: (map cell_re (optional (p :: cols)) ++ [eol_re])) (s ++ rest) c = if Nat.ltb (list_sum (firstn 0 (map snd ((n, w) :: p :: cols)))) (length s) then Some (rest, c ++ filled ((n, w) :: p :: cols) s) else None).
      assert (R : mts (map cell_re (optional (p :: cols)) ++ [eol_re]) (skipn w s ++ rest) (cap_set n (firstn w s) c) = Some (rest, c ++ filled ((n, w) :: p :: cols) s)).
      { rewrite E, optional_ok; [|discriminate|exact Hf'|now apply lacks_skipn]. unfold filled. cbn [map fst snd cells combine]. now rewrite <- app_assoc. }
      rewrite some_cell; [|exact Hs|exact Hw1|intros _; rewrite R; discriminate]. rewrite R. cbn [firstn list_sum fold_right]. rewrite E0. now destruct s.
  - inversion Hw as [|? ? Hw1 Hw2]; subst. cbn [length] in Hl. destruct (fresh_step n w c _ (firstn w s) Hf) as [E Hf']. cbn [map app]. rewrite fixed_cell by exact Hs. cbn [snd firstn list_sum fold_right] in *.
    change (fold_right Nat.add 0 (firstn f (map snd cols))) with (list_sum (firstn f (map snd cols))).
    destruct (Nat.ltb (length s) w) eqn:El.
    + apply Nat.ltb_lt in El. assert (X : Nat.ltb (w + list_sum (firstn f (map snd cols))) (length s) = false) by (apply Nat.ltb_ge; lia). now rewrite X.
    + apply Nat.ltb_ge in El. rewrite E, IH; [|lia|exact Hw2|exact Hf'|now apply lacks_skipn]. rewrite skipn_length.
      assert (X : Nat.ltb (list_sum (firstn f (map snd cols))) (length s - w) = Nat.ltb (w + list_sum (firstn f (map snd cols))) (length s)).
      { destruct (Nat.ltb_spec (list_sum (firstn f (map snd cols))) (length s - w)); symmetry; [apply Nat.ltb_lt|apply Nat.ltb_ge]; lia. }
      rewrite X. destruct cols as [|p cols]; [cbn in Hl; lia|]. unfold filled. cbn [map fst snd cells combine]. rewrite <- app_assoc. reflexivity.
Qed.
End Line.
Definition row_at (f : nat) (cols : list (str * nat)) (s : str) : bool := Nat.ltb (list_sum (firstn f (map snd cols))) (length s).
Theorem row_match f cols s u : f < length cols -> Forall (fun x => 1 <= snd x) cols -> NoDup (map fst cols) -> lacks nl s ->
  rmatch (row_re (row f cols)) (nl :: s ++ nl :: u) = if row_at f cols s then Some (nl :: u, filled cols s) else None.
Proof.
  intros Hf Hw Hd Hs. unfold rmatch, row_re. cbn [app fold_right]. rewrite mt_seq, rchar_same. change (nl :: u) with (rest u) at 1. 
  pose proof (row_ok u f cols s [] Hf Hw Hd Hs) as R. unfold mts, kend in R. exact R.
Qed.
Theorem row_find f cols d : f < length cols -> Forall (fun x => 1 <= snd x) cols -> NoDup (map fst cols) ->
  map m_caps (finditer (row_re (row f cols)) (nl :: d ++ [nl])) = flat_map (fun s => if row_at f cols s then [filled cols s] else []) (split [nl] d).
Proof.
  intros Hf Hw Hd. unfold finditer. rewrite <- stacked_split. rewrite find_lines; [|apply row_inline|apply split_pieces|lia].
  assert (G : forall ls pos, Forall (lacks nl) ls -> map m_caps (line_matches (row_re (row f cols)) ls pos) = flat_map (fun s => if row_at f cols s then [filled cols s] else []) ls).
  { induction ls as [|s ls IH]; intros pos Hl; [reflexivity|]. inversion Hl as [|? ? Hs Hl']; subst. cbn [line_matches flat_map]. destruct (stacked_nl ls) as (u & Eu). rewrite map_app, IH by exact Hl'. rewrite Eu, row_match by assumption. now destruct (row_at f cols s). }
  apply G. apply split_pieces.
Qed.
