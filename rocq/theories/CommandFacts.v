(** * CommandFacts: extract_commands finds the outputs that SpecHost says. *)
From Coq Require Import Lia.
From Verif Require Import PyBase DictFacts StrFacts Regex SpecRegex RegexFacts Template FormRegex Attributes FuncTable Loaders Session Files Inputs SpecVariable SpecText SpecHost.
From Verif Require Import LitFacts AttrFacts PathDyn TextFacts ReadFacts OutputFacts SessionFacts HostFacts.
Local Open Scope string_scope.
Local Open Scope list_scope.

Lemma plain_lit s : plain s -> Forall (fun c => kind_of c = KLit) s.
Proof.
  intros H. eapply Forall_impl; [|exact H]. intros c N. assert (K : (in_chars (t_ "\()|[.*+?{^$") c || match kind_of c with KLit => true | _ => false end)%bool = true).
  { clear. revert c. apply all_ascii. intros [] [] [] [] [] [] [] []; vm_compute; reflexivity. }
  destruct (in_chars (t_ "\()|[.*+?{^$") c) eqn:E; [apply in_chars_iff in E; contradiction|]. cbn [orb] in K. destruct (kind_of c); congruence.
Qed.
Lemma emits_lits s : plain s -> emits s [] (map rchar s).
Proof.
  intros H. apply plain_lit in H. induction H as [|c s Hc _ IH]; [apply emits_nil|]. apply (emits_app0 [c] s [rchar c] (map rchar s)); [now apply emits_char|exact IH].
Qed.
Lemma emits_ahead t r : re_compile t = Some r -> re_groups t = [] -> emits ($"(?=" ++ t ++ $")") [] [RAhead false r].
Proof.
  intros H Hn. destruct (prun_inner t r H Hn) as (b & a & -> & K). intros s Hm _.
  destruct s as [m q b0 al st ns]. cbn [p_mode] in Hm. subst m.
  rewrite !prun_app. set (s1 := prun _ _).
  assert (E1 : s1 = Some {| p_mode := MNormal; p_q := QNone; p_branch := []; p_alts := []; p_stack := (OAhead false, b0, al) :: st; p_names := ns |}) by reflexivity.
  rewrite E1. rewrite prun_app. destruct (K ((OAhead false, b0, al) :: st) ns) as [q2 ->]. eexists. reflexivity.
Qed.
Definition mark_re : re := RSet false [CChar "#"%char; CChar ">"%char].
Definition closes_re (host : str) : re := RAlt (fold_right RSeq REps (map rchar host ++ [mark_re])) (RSeq dollar_re REps).
Definition spaces_re : re := RStar true (rchar space).
Definition cmd_re (host cmd : str) : re :=
  fold_right RSeq REps (map rchar host ++ [mark_re; spaces_re] ++ map rchar cmd ++ [spaces_re; rchar nl; RSeq (rplus_lazy any_char) REps; RAhead false (closes_re host)]).
Lemma closes_compile host : plain host -> re_compile (host ++ $"[#>]|$") = Some (closes_re host) /\ re_groups (host ++ $"[#>]|$") = [].
Proof.
  intros H. change $"[#>]|$" with ($"[#>]" ++ $"|$"). rewrite app_assoc.
  assert (E : emits (host ++ $"[#>]") [] (map rchar host ++ [mark_re])). { apply emits_app0; [now apply emits_lits|]. intros s Hm _. eat s Hm. }
  unfold re_compile, re_groups. rewrite prun_app. destruct (E pst0 eq_refl) as [q ->]; [intros n []|].
  cbn [pst0 p_mode p_q p_branch p_alts p_stack p_names]. rewrite app_nil_r. cbn [rev app].
  match goal with |- context [prun $"|$" ?x] => change (prun $"|$" x) with (Some {| p_mode := MNormal; p_q := QNone; p_branch := [dollar_re]; p_alts := [seq_of (rev (map rchar host ++ [mark_re]))]; p_stack := []; p_names := [] |}) end.
  cbn [p_mode p_stack p_alts p_branch p_names]. rewrite seq_of_rev. split; reflexivity.
Qed.
Lemma cmd_compile host cmd : plain host -> plain cmd -> re_compile (command_re host cmd) = Some (cmd_re host cmd).
Proof.
  intros Hh Hc. apply (emits_compile _ []). unfold command_re.
  apply emits_app0; [now apply emits_lits|]. apply (emits_app0 _ _ [mark_re; spaces_re]); [intros s Hm _; eat s Hm|]. apply emits_app0; [now apply emits_lits|].
  change $" *\n([\S\s]+?)(?=" with ($" *\n([\S\s]+?)" ++ $"(?="). rewrite <- app_assoc. apply (emits_app0 _ _ [spaces_re; rchar nl; RSeq (rplus_lazy any_char) REps]); [intros s Hm _; eat s Hm|].
  change $"[#>]|$)" with ($"[#>]|$" ++ $")"). rewrite (app_assoc host). destruct (closes_compile host Hh) as [C G]. apply (emits_ahead _ _ C G).
Qed.

(** ** matching *)
Lemma mt_lits s l t c k : mt (fold_right RSeq REps (map rchar s ++ l)) t c k = if prefixb s t then mt (fold_right RSeq REps l) (skipn (length s) t) c k else None.
Proof.
  revert t. induction s as [|x s IH]; intros t; [reflexivity|]. cbn [map app fold_right]. rewrite mt_seq. unfold rchar at 1. rewrite mt_chr. destruct t as [|y t]; [reflexivity|]. cbn [prefixb length skipn]. destruct (Ascii.eqb x y); [apply IH|reflexivity].
Qed.
Lemma mt_lits_some s l t c k x : mt (fold_right RSeq REps (map rchar s ++ l)) t c k = Some x <-> exists t', t = s ++ t' /\ mt (fold_right RSeq REps l) t' c k = Some x.
Proof.
  rewrite mt_lits. destruct (prefixb s t) eqn:P.
  - apply StrFacts.prefixb_app in P. destruct P as (t' & ->). rewrite skipn_app, Nat.sub_diag, skipn_all. cbn [app skipn]. split; [eauto|]. intros (t2 & E & K). apply app_inv_head in E. now subst.
  - split; [discriminate|]. intros (t' & -> & _). rewrite (proj2 (StrFacts.prefixb_app s (s ++ t'))) in P; [discriminate|eauto].
Qed.
Lemma mark_some l t c k x : mt (fold_right RSeq REps (mark_re :: l)) t c k = Some x <-> exists e t', t = e :: t' /\ prompt_end e /\ mt (fold_right RSeq REps l) t' c k = Some x.
Proof.
  cbn [fold_right]. rewrite mt_seq. unfold mark_re. rewrite mt_set. destruct t as [|y t]; [split; [discriminate|intros (e & t' & E & _); discriminate]|].
  change [CChar "#"%char; CChar ">"%char] with (map CChar (t_ "#>")). destruct (set_match false (map CChar (t_ "#>")) y) eqn:M.
  - apply set_chars in M. split; [intros K; exists y, t; auto|]. intros (e & t' & E & _ & K). congruence.
  - split; [discriminate|]. intros (e & t' & E & P & _). injection E as <- <-. apply set_chars in P. congruence.
Qed.
Lemma dollar_some s c k x : mt dollar_re s c k = Some x <-> (s = [] \/ s = [nl]) /\ k s c = Some x.
Proof.
  unfold dollar_re. change (RAhead true (RSet true [])) with at_end. change (mt (RAhead false ?r) s c k) with (match mt r s c (fun s' c' => Some (s', c')) with Some (_, c') => k s c' | None => None end).
  rewrite mt_seq. unfold ropt. rewrite mt_alt, mt_eps, !mt_at_end. unfold rchar. rewrite mt_chr. destruct s as [|y [|z s]].
  - tauto.
  - destruct (Ascii.eqb nl y) eqn:E.
    + apply Ascii.eqb_eq in E. subst y. rewrite ?mt_at_end. tauto.
    + apply Ascii.eqb_neq in E. split; [discriminate|]. intros [[K|K] _]; congruence.
  - split; [|intros [[K|K] _]; discriminate]. destruct (Ascii.eqb nl y); rewrite ?mt_at_end; discriminate.
Qed.
Lemma some_not {A} (o : option A) : (forall x, o <> Some x) <-> o = None. Proof. destruct o; split; intros H; try congruence. Qed.
Lemma closes_iff host s c : (exists x, mt (closes_re host) s c kend = Some x) <-> closes host s.
Proof.
  unfold closes_re, closes. rewrite mt_alt. split.
  - intros (x & K). destruct (mt (fold_right RSeq REps (map rchar host ++ [mark_re])) s c kend) as [y|] eqn:E.
    + right. right. apply mt_lits_some in E. destruct E as (t' & -> & E). apply mark_some in E. destruct E as (e & t & -> & P & _). exists e, t. auto.
    + rewrite mt_seq in K. apply dollar_some in K. tauto.
  - intros H. destruct (mt (fold_right RSeq REps (map rchar host ++ [mark_re])) s c kend) as [y|] eqn:E; [eauto|]. destruct H as [H|[H|(e & r & -> & P)]].
    + exists (s, c). rewrite mt_seq. apply dollar_some. split; [now left|]. rewrite mt_eps. reflexivity.
    + exists (s, c). rewrite mt_seq. apply dollar_some. split; [now right|]. rewrite mt_eps. reflexivity.
    + exfalso. assert (X : mt (fold_right RSeq REps (map rchar host ++ [mark_re])) (host ++ e :: r) c kend = Some (r, c)); [|congruence].
      apply mt_lits_some. exists (e :: r). split; [reflexivity|]. apply mark_some. exists e, r. split; [reflexivity|]. split; [exact P|]. cbn [fold_right]. rewrite mt_eps. reflexivity.
Qed.
Lemma caps_closes host s c x : mt (closes_re host) s c kend = Some x -> snd x = c.
Proof.
  unfold closes_re. rewrite mt_alt. destruct (mt (fold_right RSeq REps (map rchar host ++ [mark_re])) s c kend) as [y|] eqn:E.
  - intros K. apply mt_lits_some in E. destruct E as (t' & _ & E). apply mark_some in E. destruct E as (e & t & _ & _ & E). cbn [fold_right] in E. rewrite mt_eps in E. unfold kend in E. assert (x = (t, c)) by congruence. now subst.
  - rewrite mt_seq. intros K. apply dollar_some in K. destruct K as [_ K]. rewrite mt_eps in K. unfold kend in K. assert (x = (s, c)) by congruence. now subst.
Qed.
Lemma ahead_some host s c x : mt (RSeq (RAhead false (closes_re host)) REps) s c kend = Some x <-> closes host s /\ x = (s, c).
Proof.
  rewrite mt_seq. change (mt (RAhead false ?r) s c ?k) with (match mt r s c kend with Some (_, c') => k s c' | None => None end). cbv beta. destruct (mt (closes_re host) s c kend) as [[s' c']|] eqn:E.
  - assert (H : closes host s) by (apply (closes_iff host s c); eauto). apply caps_closes in E. cbn [snd] in E. subst c'. rewrite mt_eps. unfold kend. split; [intros K; split; [exact H|congruence]|intros [_ ->]; reflexivity].
  - split; [discriminate|]. intros [H _]. apply (closes_iff host s c) in H. destruct H as (y & H). congruence.
Qed.
Lemma ahead_no host s c : mt (RSeq (RAhead false (closes_re host)) REps) s c kend = None <-> ~ closes host s.
Proof.
  rewrite <- some_not. split; [intros H K; apply (H (s, c)); now apply ahead_some|]. intros H x K. apply ahead_some in K. tauto.
Qed.
Lemma all_any a : all_p false [CNSpaceC; CSpaceC] a.
Proof. unfold all_p. apply Forall_forall. intros c _. unfold set_match. cbn [existsb citem_match]. rewrite xorb_false_l. now destruct (is_space c). Qed.
Lemma body_part host s c x : mt (RSeq (RSeq (rplus_lazy any_char) REps) (RSeq (RAhead false (closes_re host)) REps)) s c kend = Some x <->
  exists b rest, s = b ++ rest /\ b <> [] /\ closes host rest /\ x = (rest, c) /\ forall b' r, s = b' ++ r -> b' <> [] -> length b' < length b -> ~ closes host r.
Proof.
  rewrite mt_seq, mt_seq. unfold rplus_lazy, any_char. rewrite lazy_some. split.
  - intros (a & t & -> & N & _ & K & M). rewrite mt_eps in K. apply ahead_some in K. destruct K as [C ->]. exists a, t. repeat (split; [solve [auto]|]). intros b' r E N' L. specialize (M b' r E N' (all_any b') L). rewrite mt_eps in M. now apply ahead_no in M.
  - intros (a & t & -> & N & C & -> & M). exists a, t. split; [reflexivity|]. split; [exact N|]. split; [apply all_any|]. split; [rewrite mt_eps; now apply ahead_some|]. intros a' t' E N' _ L. rewrite mt_eps. apply ahead_no. now apply (M a').
Qed.
Lemma spaces_all a : all_p false [CChar space] a <-> Forall (eq space) a.
Proof. unfold all_p. split; intros H; eapply Forall_impl; try exact H; intros c; unfold set_match; cbn [existsb citem_match]; rewrite orb_false_r, xorb_false_l, Ascii.eqb_eq; auto. Qed.
Definition space_free (t : str) : Prop := match t with y :: _ => y <> space | [] => True end.
(** when what follows does not begin with a space, all spaces are taken *)
Lemma spaces_some l t c k x : (forall s, ~ space_free s -> mt (fold_right RSeq REps l) s c k = None) ->
  mt (fold_right RSeq REps (spaces_re :: l)) t c k = Some x <-> exists sp t', t = sp ++ t' /\ Forall (eq space) sp /\ mt (fold_right RSeq REps l) t' c k = Some x.
Proof.
  intros H. cbn [fold_right]. rewrite mt_seq. unfold spaces_re, rchar. rewrite mt_star_set, sstar_some. split.
  - intros (a & t' & -> & A & K & _). exists a, t'. split; [reflexivity|]. split; [now apply spaces_all|exact K].
  - intros (a & t' & -> & A & K). exists a, t'. split; [reflexivity|]. split; [now apply spaces_all|]. split; [exact K|]. intros a' t2 E A' L. apply spaces_all in A'. exfalso.
    assert (F : space_free t'). { destruct t' as [|y t']; [exact I|]. cbn. intros ->. rewrite H in K; [discriminate|]. cbn. intros N. now elim N. }
    apply app_eq_app in E. destruct E as (q & [[E1 E2]|[E1 E2]]); [apply (Logic.f_equal (@length _)) in E1; rewrite app_length in E1; lia|]. subst a' t'. apply Forall_app in A'. destruct A' as [_ A'].
    destruct q as [|y q]; [rewrite app_nil_r in L; lia|]. inversion A'; subst. now apply F.
Qed.
Definition command_ok (cmd : str) : Prop := plain cmd /\ exists c r, cmd = c :: r /\ c <> space.
Theorem cmd_some host cmd s x : command_ok cmd -> mt (cmd_re host cmd) s [] kend = Some x <-> exists o rest, output_at host cmd s o rest /\ x = (rest, []).
Proof.
  intros [_ (c0 & r0 & Ec & N0)]. unfold cmd_re. rewrite mt_lits_some. cbn [app]. split.
  - intros (t1 & -> & K). apply mark_some in K. destruct K as (e & t2 & -> & P & K). apply spaces_some in K.
    2:{ intros q Q. destruct (mt _ q [] kend) eqn:E; [|reflexivity]. apply mt_lits_some in E. destruct E as (t' & -> & _). exfalso. apply Q. rewrite Ec. exact N0. }
    destruct K as (sp1 & t3 & -> & S1 & K). apply mt_lits_some in K. destruct K as (t4 & -> & K). apply spaces_some in K.
    2:{ intros q Q. cbn [fold_right]. rewrite mt_seq. unfold rchar. rewrite mt_chr. destruct q as [|y q]; [reflexivity|]. destruct (Ascii.eqb nl y) eqn:E; [|reflexivity]. apply Ascii.eqb_eq in E. subst y. exfalso. apply Q. discriminate. }
    destruct K as (sp2 & t5 & -> & S2 & K). cbn [fold_right] in K. rewrite mt_seq in K. unfold rchar in K. rewrite mt_chr in K. destruct t5 as [|y t5]; [discriminate|]. destruct (Ascii.eqb nl y) eqn:E; [|discriminate]. apply Ascii.eqb_eq in E. subst y.
    apply body_part in K. destruct K as (b & rest & -> & Nb & C & -> & M). exists (host ++ [e] ++ sp1 ++ cmd ++ sp2 ++ [nl] ++ b), rest. split; [|reflexivity]. split; [rewrite <- !app_assoc; cbn [app]; rewrite <- ?app_assoc; cbn [app]; rewrite <- ?app_assoc; reflexivity|]. exists e, sp1, sp2, b. repeat (split; [solve [auto]|]). exact M.
  - intros (o & rest & [-> (e & sp1 & sp2 & b & -> & P & S1 & S2 & Nb & C & M)] & ->). exists (e :: sp1 ++ cmd ++ sp2 ++ nl :: b ++ rest). split; [rewrite <- !app_assoc; cbn [app]; rewrite <- ?app_assoc; cbn [app]; rewrite <- ?app_assoc; reflexivity|].
    apply mark_some. exists e. eexists. split; [reflexivity|]. split; [exact P|]. apply spaces_some.
    { intros q Q. destruct (mt _ q [] kend) eqn:E; [|reflexivity]. apply mt_lits_some in E. destruct E as (t' & -> & _). exfalso. apply Q. rewrite Ec. exact N0. }
    exists sp1. eexists. split; [reflexivity|]. split; [exact S1|]. apply mt_lits_some. eexists. split; [reflexivity|]. apply spaces_some.
    { intros q Q. cbn [fold_right]. rewrite mt_seq. unfold rchar. rewrite mt_chr. destruct q as [|y q]; [reflexivity|]. destruct (Ascii.eqb nl y) eqn:E; [|reflexivity]. apply Ascii.eqb_eq in E. subst y. exfalso. apply Q. discriminate. }
    exists sp2. eexists. split; [reflexivity|]. split; [exact S2|]. cbn [fold_right]. rewrite mt_seq. unfold rchar. rewrite mt_chr, Ascii.eqb_refl. apply body_part. exists b, rest. auto 10.
Qed.

(** ** the first match *)
Lemma go_head r : forall f s pos, length s < f ->
  match finditer_go f r s pos with
  | m :: _ => exists pre s1 s' c, s = pre ++ s1 /\ rmatch r s1 = Some (s', c) /\ m_text m = firstn (length s1 - length s') s1 /\ forall pre' s2, s = pre' ++ s2 -> length pre' < length pre -> rmatch r s2 = None
  | [] => forall pre s1, s = pre ++ s1 -> rmatch r s1 = None
  end.
Proof.
  induction f as [|f IH]; intros s pos L; [lia|]. cbn [finditer_go]. destruct (rmatch r s) as [[s' c]|] eqn:E.
  - assert (G : exists pre s1 s'0 c0, s = pre ++ s1 /\ rmatch r s1 = Some (s'0, c0) /\ firstn (length s - length s') s = firstn (length s1 - length s'0) s1 /\ forall pre' s2, s = pre' ++ s2 -> length pre' < length pre -> rmatch r s2 = None).
    { exists [], s, s', c. repeat (split; [solve [auto]|]). intros pre' s2 _ L'. cbn in L'. lia. }
    destruct (length s - length s') eqn:Q; exact G.
  - destruct s as [|x s].
    + intros pre s1 H. destruct pre; [|discriminate]. cbn in H. now subst.
    + cbn in L. specialize (IH s (S pos) ltac:(lia)). destruct (finditer_go f r s (S pos)) as [|m ms].
      * intros pre s1 H. destruct pre as [|y pre]; cbn in H; [now subst|]. injection H as <- H. now apply (IH pre).
      * destruct IH as (pre & s1 & s' & c & -> & R & Tm & M). exists (x :: pre), s1, s', c. repeat (split; [solve [auto]|]). intros pre' s2 H L'. destruct pre' as [|y pre']; cbn in H; [now subst|]. injection H as <- H. cbn in L'. apply (M pre' s2 H). lia.
Qed.
Section H.
Variable host : str.
Hypothesis Hhost : plain host.
Lemma rmatch_cmd cmd s : command_ok cmd -> forall x, rmatch (cmd_re host cmd) s = Some x <-> exists o rest, output_at host cmd s o rest /\ x = (rest, []).
Proof. intros H x. exact (cmd_some host cmd s x H). Qed.
Lemma rmatch_none cmd s : command_ok cmd -> rmatch (cmd_re host cmd) s = None <-> forall o rest, ~ output_at host cmd s o rest.
Proof.
  intros H. rewrite <- some_not. split.
  - intros N o rest K. apply (N (rest, [])). apply (rmatch_cmd _ _ H). eauto.
  - intros N x K. apply (rmatch_cmd _ _ H) in K. destruct K as (o & rest & K & _). now apply (N o rest).
Qed.
Lemma first_output cmd text : command_ok cmd ->
  match finditer (cmd_re host cmd) text with m :: _ => command_output host cmd text (m_text m) | [] => forall o, ~ command_output host cmd text o end.
Proof.
  intros H. unfold finditer. pose proof (go_head (cmd_re host cmd) (S (length text)) text 0 ltac:(lia)) as G. destruct (finditer_go _ _ text 0) as [|m ms].
  - intros o (pre & s & rest & E & K & _). apply G in E. exact (proj1 (rmatch_none cmd s H) E o rest K).
  - destruct G as (pre & s1 & s' & c & E & R & Tm & M). apply (rmatch_cmd _ _ H) in R. destruct R as (o & rest & O & X). assert (s' = rest) by congruence. subst s'. pose proof O as [Es _].
    exists pre, s1, rest. split; [exact E|]. rewrite Tm. rewrite Es, firstn_cut. rewrite <- Es. split; [exact O|]. intros pre' s2 o' rest' E' L. specialize (M pre' s2 E' L). exact (proj1 (rmatch_none cmd s2 H) M o' rest').
Qed.
Lemma output_fun cmd text o o' : command_ok cmd -> command_output host cmd text o -> command_output host cmd text o' -> o = o'.
Proof.
  intros H (pre & s & rest & E & O & M) (pre' & s' & rest' & E' & O' & M').
  destruct (Nat.lt_trichotomy (length pre) (length pre')) as [L|[L|L]]; [elim (M' pre s o rest E L O)| |elim (M pre' s' o' rest' E' L O')].
  rewrite E in E'. apply same_len in E'; [|exact L]. destruct E' as [_ ->]. assert (R : rmatch (cmd_re host cmd) s' = Some (rest, [])) by (apply (rmatch_cmd _ _ H); eauto). assert (R' : rmatch (cmd_re host cmd) s' = Some (rest', [])) by (apply (rmatch_cmd _ _ H); eauto).
  assert (rest = rest') by congruence. subst rest'. destruct O as [-> _], O' as [O' _]. now apply app_inv_tail in O'.
Qed.
Definition one (cmd text l : str) : Prop :=
  (exists o, command_output host cmd text o /\ l = [nl] ++ o ++ [nl]) \/ ((forall o, ~ command_output host cmd text o) /\ l = []).
Lemma one_iff cmd text l : command_ok cmd -> match finditer (cmd_re host cmd) text with m :: _ => [nl] ++ m_text m ++ [nl] | [] => [] end = l <-> one cmd text l.
Proof.
  intros H. pose proof (first_output cmd text H) as F. unfold one. destruct (finditer (cmd_re host cmd) text) as [|m ms].
  - split; [intros <-; now right|]. intros [(o & K & _)|[_ ->]]; [now elim (F o)|reflexivity].
  - split; [intros <-; left; eauto|]. intros [(o & K & ->)|[N _]]; [|now elim (N (m_text m))]. now rewrite (output_fun cmd text o (m_text m) H K F).
Qed.
Theorem outputs_iff cmds text : Forall command_ok cmds -> forall r, extract_commands host cmds text = Ok r <-> outputs_of host cmds text r.
Proof.
  intros HF r. change (outputs_of host cmds text r) with (exists ls, Forall2 (fun cmd => one cmd text) cmds ls /\ r = concat ls). revert r.
  induction HF as [|cmd cmds Hc Hcs IH]; intros r; cbn [extract_commands].
  - split; [intros K; exists []; split; [apply Forall2_nil|cbn; congruence]|]. intros (ls & F & ->). inversion F; subst. reflexivity.
  - rewrite cmd_compile by (exact Hhost || exact (proj1 Hc)). split.
    + intros K. destruct (extract_commands host cmds text) as [rest|] eqn:E; [|discriminate]. cbn [rbind] in K. destruct (proj1 (IH rest) eq_refl) as (ls & F & ->). eexists (_ :: ls). split; [constructor; [now apply one_iff|exact F]|]. cbn [concat]. congruence.
    + intros (ls & F & ->). inversion F as [|? l ? ls' O F']; subst. rewrite (proj2 (IH (concat ls'))) by eauto. cbn [rbind concat]. apply one_iff in O; [|exact Hc]. now rewrite O.
Qed.
End H.
Theorem commands_iff ms cmds text r : Forall command_ok cmds -> (forall h, host_in text h -> plain h) ->
  input_call ms text {| at_name := t_ "extract_commands"; at_args := map VStr cmds; at_kwargs := [] |} = Ok (r, true) <-> commands_give cmds text r.
Proof.
  intros Hc Hp. unfold input_call. cbn [at_name at_args at_kwargs]. change (str_eqb (t_ "extract_commands") $"extract_commands") with true. cbv iota.
  assert (A : rmap (fun v => Ok (py_str v)) (map VStr cmds) = Ok cmds). { clear. induction cmds as [|c cmds IH]; [reflexivity|]. cbn [map rmap]. rewrite IH. reflexivity. }
  rewrite A. cbn [rbind]. destruct (gethostname text) as [[|x h]|] eqn:G.
  - apply hostname_iff in G. split; [intros K; assert (r = text) by congruence; subst; now apply cg_empty_host|].
    intros K. inversion K as [N|_|h H N _|h r' H N _]; subst; try reflexivity; exfalso; apply hostname_iff in G, H; congruence.
  - pose proof G as G'. apply hostname_iff in G'. pose proof (outputs_iff (x :: h) (Hp _ G') cmds text Hc) as O. split.
    + intros K. destruct (extract_commands (x :: h) cmds text) as [o|] eqn:E; [|discriminate]. cbn [rbind] in K. pose proof (proj1 (O o) eq_refl) as Q. destruct o as [|y o].
      * assert (r = text) by congruence. subst r. apply (cg_none _ _ (x :: h)); [exact G'|discriminate|exact Q].
      * assert (r = y :: o) by congruence. subst r. apply (cg_some _ _ (x :: h)); [exact G'|discriminate|exact Q|discriminate].
    + intros K. assert (U : forall h', host_in text h' -> h' = x :: h) by (intros h' H; apply hostname_iff in H; congruence). inversion K as [N|N|h' H N Q|h' r' H N Q R]; subst.
      * now elim (N (x :: h)).
      * apply U in N. discriminate.
      * apply U in H. subst h'. apply O in Q. rewrite Q. reflexivity.
      * apply U in H. subst h'. apply O in Q. rewrite Q. cbn [rbind]. destruct r; [congruence|reflexivity].
  - assert (N : forall h, ~ host_in text h) by (intros h K; apply hostname_iff in K; congruence). split; [intros K; assert (r = text) by congruence; subst; now apply cg_no_host|].
    intros K. inversion K as [_|H|h H _ _|h r' H _ _]; subst; [reflexivity|now elim (N [])|now elim (N h)|now elim (N h)].
Qed.
