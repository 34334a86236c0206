(** * PatternFacts: the built-in patterns of ttp match exactly the texts of SpecPattern.v. *)
From Verif Require Import PyBase DictFacts StrFacts Regex SpecRegex FormRegex SpecPattern Parser.
Local Open Scope string_scope.
Local Open Scope list_scope.

Lemma d_iff r P Q : denotes r P -> (forall w, P w <-> Q w) -> denotes r Q.
Proof.
  intros H E s c s' c'. rewrite (H s c s' c'). split; (intros [-> (w & -> & Hw)]; split; [reflexivity|]; exists w; split; [reflexivity|]; now apply E).
Qed.
Lemma d_eps : denotes REps (fun w => w = []).
Proof.
  intros s c s' c'. cbn [rel]. split.
  - intros [-> ->]. split; [reflexivity|]. now exists [].
  - intros [-> (w & -> & ->)]. now split.
Qed.
Lemma d_set neg items : denotes (RSet neg items) (fun w => exists x, w = [x] /\ set_match neg items x = true).
Proof.
  intros s c s' c'. cbn [rel]. split.
  - intros (x & -> & H & ->). split; [reflexivity|]. exists [x]. split; [reflexivity|]. now exists x.
  - intros [-> (w & -> & x & -> & H)]. exists x. now repeat split.
Qed.
Lemma d_any : denotes RAny (fun w => exists x, w = [x] /\ x <> nl).
Proof.
  intros s c s' c'. cbn [rel]. split.
  - intros (x & -> & H & ->). split; [reflexivity|]. exists [x]. split; [reflexivity|]. now exists x.
  - intros [-> (w & -> & x & -> & H)]. exists x. now repeat split.
Qed.
Definition cat (P Q : str -> Prop) (w : str) : Prop := exists a b, w = a ++ b /\ P a /\ Q b.
Lemma d_seq a b P Q : denotes a P -> denotes b Q -> denotes (RSeq a b) (cat P Q).
Proof.
  intros HA HB s c s' c'. cbn [rel]. split.
  - intros (s1 & c1 & H1 & H2). apply HA in H1 as [-> (w & -> & Hw)]. apply HB in H2 as [-> (v & -> & Hv)]. split; [reflexivity|].
    exists (w ++ v). split; [now rewrite app_assoc|]. now exists w, v.
  - intros [-> (x & -> & w & v & -> & Hw & Hv)]. exists (v ++ s'), c. split; [apply HA|apply HB]; (split; [reflexivity|]).
    + exists w. split; [now rewrite app_assoc|exact Hw].
    + now exists v.
Qed.
Lemma d_alt a b P Q : denotes a P -> denotes b Q -> denotes (RAlt a b) (fun w => P w \/ Q w).
Proof.
  intros HA HB s c s' c'. cbn [rel]. rewrite (HA s c s' c'), (HB s c s' c'). split.
  - intros [[-> (w & -> & H)]|[-> (w & -> & H)]]; (split; [reflexivity|]; exists w; split; [reflexivity|]; tauto).
  - intros [-> (w & -> & [H|H])]; [left|right]; (split; [reflexivity|]; now exists w).
Qed.
Definition many (lo : nat) (hi : option nat) (P : str -> Prop) (w : str) : Prop :=
  exists ws, w = concat ws /\ Forall P ws /\ lo <= length ws /\ match hi with Some h => length ws <= h | None => True end.
Lemma d_star g r P : denotes r P -> ~ P [] -> denotes (RStar g r) (many 0 None P).
Proof.
  intros HR Hne s c s' c'. cbn [rel]. split.
  - induction 1 as [s c|s c s1 c1 s2 c2 H1 Hl _ IH].
    + split; [reflexivity|]. exists []. split; [reflexivity|]. exists []. repeat split; [constructor|cbn; lia].
    + destruct IH as [-> (w & -> & ws & -> & HF & _)]. apply HR in H1 as [-> (v & -> & Hv)]. split; [reflexivity|].
      exists (v ++ concat ws). split; [now rewrite app_assoc|]. exists (v :: ws). repeat split; [now constructor|cbn; lia].
  - intros [-> (w & -> & ws & -> & HF & _)]. induction HF as [|v ws Hv HF IH]; [constructor|].
    cbn [concat]. rewrite <- app_assoc. eapply sr_more; [apply HR; split; [reflexivity|]; exists v; split; [reflexivity|exact Hv]| |exact IH].
    rewrite !app_length. destruct v; [contradiction|]. cbn [length]. lia.
Qed.
Lemma d_opts g r P n : denotes r P -> denotes (opts g n r) (many 0 (Some n) P).
Proof.
  intros HR. induction n as [|n IH].
  - eapply d_iff; [exact d_eps|]. intros w. split.
    + intros ->. exists []. repeat split; [constructor| |]; cbn; lia.
    + intros (ws & -> & _ & _ & H). destruct ws; [reflexivity|cbn in H; lia].
  - assert (E : forall w, (cat P (many 0 (Some n) P) w \/ w = []) <-> many 0 (Some (S n)) P w).
    { intros w. split.
      - intros [(a & b & -> & Ha & ws & -> & HF & _ & Hl)| ->].
        + exists (a :: ws). repeat split; [now constructor| |]; cbn; lia.
        + exists []. repeat split; [constructor| |]; cbn; lia.
      - intros (ws & -> & HF & _ & Hl). destruct HF as [|a ws Ha HF]; [now right|]. left. exists a, (concat ws). repeat split; [exact Ha|].
        exists ws. repeat split; [exact HF| |]; cbn in *; lia. }
    cbn [opts]. destruct g.
    + eapply d_iff; [exact (d_alt _ _ _ _ (d_seq _ _ _ _ HR IH) d_eps)|]. exact E.
    + eapply d_iff; [exact (d_alt _ _ _ _ d_eps (d_seq _ _ _ _ HR IH))|]. intros w. rewrite <- E. tauto.
Qed.
Lemma d_copies r P n tail Q : denotes r P -> denotes tail Q -> denotes (copies n r tail) (cat (many n (Some n) P) Q).
Proof.
  intros HR HT. induction n as [|n IH]; cbn [copies].
  - eapply d_iff; [exact HT|]. intros w. split.
    + intros H. exists [], w. repeat split; [|exact H]. exists []. repeat split; [constructor| |]; cbn; lia.
    + intros (a & b & -> & (ws & -> & _ & _ & Hl) & Hb). destruct ws; [exact Hb|cbn in Hl; lia].
  - eapply d_iff; [exact (d_seq _ _ _ _ HR IH)|]. intros w. split.
    + intros (a & b & -> & Ha & x & y & -> & (ws & -> & HF & H1 & H2) & Hy). exists (a ++ concat ws), y. split; [now rewrite app_assoc|]. split; [|exact Hy].
      exists (a :: ws). repeat split; [now constructor| |]; cbn; lia.
    + intros (a & b & -> & (ws & -> & HF & H1 & H2) & Hb). destruct HF as [|x ws Hx HF]; [cbn in H1; lia|].
      exists x, (concat ws ++ b). split; [cbn [concat]; now rewrite app_assoc|]. split; [exact Hx|]. exists (concat ws), b. repeat split; [|exact Hb].
      exists ws. repeat split; [exact HF| |]; cbn in *; lia.
Qed.
Lemma d_rep g r P lo hi : denotes r P -> ~ P [] \/ hi <> None -> match hi with Some h => lo <= h | None => True end ->
  denotes (mk_rep g r lo hi) (many lo hi P).
Proof.
  intros HR Hne Hh. unfold mk_rep. destruct hi as [h|].
  - eapply d_iff; [exact (d_copies _ _ _ _ _ HR (d_opts g _ _ (h - lo) HR))|]. intros w. split.
    + intros (a & b & -> & (ws & -> & HF & H1 & H2) & vs & -> & HG & _ & H3). exists (ws ++ vs). rewrite concat_app, app_length.
      repeat split; [now apply Forall_app|lia|lia].
    + intros (ws & -> & HF & H1 & H2). exists (concat (firstn lo ws)), (concat (skipn lo ws)).
      split; [now rewrite <- concat_app, firstn_skipn|]. assert (HF' := HF). rewrite <- (firstn_skipn lo ws) in HF'. apply Forall_app in HF' as [HF1 HF2].
      split; [exists (firstn lo ws)|exists (skipn lo ws)]; repeat split; try assumption; rewrite ?firstn_length, ?skipn_length; lia.
  - assert (Hn : ~ P []) by (destruct Hne; [assumption|congruence]).
    eapply d_iff; [exact (d_copies _ _ _ _ _ HR (d_star g _ _ HR Hn))|]. intros w. split.
    + intros (a & b & -> & (ws & -> & HF & H1 & H2) & vs & -> & HG & _). exists (ws ++ vs). rewrite concat_app, app_length.
      repeat split; [now apply Forall_app|lia].
    + intros (ws & -> & HF & H1 & _). exists (concat (firstn lo ws)), (concat (skipn lo ws)).
      split; [now rewrite <- concat_app, firstn_skipn|]. assert (HF' := HF). rewrite <- (firstn_skipn lo ws) in HF'. apply Forall_app in HF' as [HF1 HF2].
      split; [exists (firstn lo ws)|exists (skipn lo ws)]; repeat split; try assumption; rewrite ?firstn_length, ?skipn_length; lia.
Qed.

(** single characters *)
Definition one (Q : ascii -> Prop) (w : str) : Prop := exists x, w = [x] /\ Q x.
Lemma d_one neg items Q : (forall x, set_match neg items x = true <-> Q x) -> denotes (RSet neg items) (one Q).
Proof. intros H. eapply d_iff; [apply d_set|]. intros w. unfold one. split; intros (x & -> & Hx); exists x; (split; [reflexivity|]); now apply H. Qed.
Lemma one_ne Q : ~ one Q [].
Proof. intros (x & H & _). discriminate. Qed.
Lemma many_one Q lo hi w : many lo hi (one Q) w <-> lo <= length w /\ match hi with Some h => length w <= h | None => True end /\ Forall Q w.
Proof.
  split.
  - intros (ws & -> & HF & H1 & H2). assert (HC : length (concat ws) = length ws /\ Forall Q (concat ws)).
    { clear H1 H2. induction HF as [|v ws (x & -> & Hx) HF [IH1 IH2]]; [split; [reflexivity|constructor]|].
      cbn [concat app length]. split; [now rewrite IH1|now constructor]. }
    destruct HC as [-> HC]. destruct hi; auto.
  - intros (H1 & H2 & HF). exists (map (fun x => [x]) w). assert (E : concat (map (fun x => [x]) w) = w).
    { clear. induction w; [reflexivity|]. cbn. now rewrite IHw. }
    split; [now rewrite E|]. split; [|rewrite map_length; destruct hi; auto].
    apply Forall_map. eapply Forall_impl; [|exact HF]. intros x Hx. now exists x.
Qed.
Lemma cat_eps P w : cat P (fun w => w = []) w <-> P w.
Proof.
  split.
  - intros (a & b & -> & Ha & ->). now rewrite app_nil_r.
  - intros H. exists w, []. rewrite app_nil_r. auto.
Qed.
(** [r] alone, as the reader writes a sequence of one piece *)
Lemma d_single r P : denotes r P -> denotes (RSeq r REps) P.
Proof. intros H. eapply d_iff; [exact (d_seq _ _ _ _ H d_eps)|]. intros w. apply cat_eps. Qed.

Definition names_pattern (name : str) (P : str -> Prop) : Prop :=
  exists t r, assoc name patterns = Some t /\ re_compile t = Some r /\ denotes r P.

(** ** the character classes used *)
Definition r_ns : re := RSet false [CNSpaceC].
Definition nonspace (c : ascii) : Prop := is_space c = false.
Lemma d_ns : denotes r_ns (one nonspace).
Proof. apply d_one. intros x. unfold nonspace. unfold set_match; cbn [existsb citem_match]. destruct (is_space x); cbn; split; congruence. Qed.
Definition r_lit (c : ascii) : re := RSet false [CChar c].
Lemma d_lit c : denotes (r_lit c) (one (fun x => x = c)).
Proof.
  apply d_one. intros x. unfold set_match. cbn [existsb citem_match]. destruct (Ascii.eqb_spec c x) as [H|H]; cbn; split; congruence.
Qed.
Definition r_09 : re := RSet false [CRange "0" "9"].
Lemma d_09 : denotes r_09 (one digit).
Proof.
  apply d_one. intros x. unfold digit. unfold set_match; cbn [existsb citem_match]. rewrite orb_false_r. unfold is_dec.
  replace (xorb false (between (code "0") (code "9") x)) with (between (code "0") (code "9") x) by (now destruct (between _ _ x)). reflexivity.
Qed.
Definition r_hex1 : re := RSet false [CRange "a" "f"; CRange "A" "F"; CRange "0" "9"].
Definition r_hex2 : re := RSet false [CRange "0" "9"; CRange "a" "f"; CRange "A" "F"].
Lemma d_hex1 : denotes r_hex1 (one hex).
Proof.
  apply d_one. intros x. unfold hex, set_match. cbn [existsb citem_match]. 
  destruct (between (code "0") (code "9") x), (between (code "a") (code "f") x), (between (code "A") (code "F") x); cbn; split; congruence.
Qed.
Lemma d_hex2 : denotes r_hex2 (one hex).
Proof.
  apply d_one. intros x. unfold hex, set_match. cbn [existsb citem_match]. 
  destruct (between (code "0") (code "9") x), (between (code "a") (code "f") x), (between (code "A") (code "F") x); cbn; split; congruence.
Qed.
Definition plus (r : re) : re := mk_rep true r 1 None.
Lemma d_plus Q r : denotes r (one Q) -> denotes (plus r) (fun w => w <> [] /\ Forall Q w).
Proof.
  intros H. eapply d_iff; [apply (d_rep true _ _ 1 None H); [left; apply one_ne|exact I]|]. intros w. rewrite many_one. split.
  - intros (H1 & _ & H2). split; [|exact H2]. destruct w; [cbn in H1; lia|discriminate].
  - intros [H1 H2]. repeat split; [|exact H2]. destruct w; [congruence|cbn; lia].
Qed.
Lemma d_run Q r lo hi : denotes r (one Q) -> lo <= hi -> denotes (mk_rep true r lo (Some hi)) (run_of Q lo hi).
Proof.
  intros H Hl. eapply d_iff; [apply (d_rep true _ _ lo (Some hi) H); [right; discriminate|exact Hl]|]. intros w. rewrite many_one. unfold run_of. tauto.
Qed.
Lemma d_word : denotes (plus r_ns) word.
Proof. exact (d_plus _ _ d_ns). Qed.

Theorem pat_WORD : names_pattern $"WORD" p_word.
Proof. eexists. exists (RSeq (plus r_ns) REps). split; [reflexivity|]. split; [vm_compute; reflexivity|]. apply d_single, d_word. Qed.
Theorem pat_DIGIT : names_pattern $"DIGIT" p_digit.
Proof.
  eexists. exists (RSeq (plus (RSet false [CDigitC])) REps). split; [reflexivity|]. split; [vm_compute; reflexivity|]. apply d_single.
  apply (d_plus digit). apply d_one. intros x. unfold digit. unfold set_match; cbn [existsb citem_match]. rewrite orb_false_r. now destruct (is_dec x).
Qed.
Theorem pat_line : names_pattern $"_line_" p_line.
Proof.
  eexists. exists (RSeq (plus RAny) REps). split; [reflexivity|]. split; [vm_compute; reflexivity|]. apply d_single.
  eapply d_iff; [exact (d_plus (fun x => x <> nl) RAny d_any)|]. intros w. unfold p_line. rewrite Forall_forall. split; intros [H1 H2]; (split; [exact H1|]).
  - intros Hi. exact (H2 _ Hi eq_refl).
  - intros x Hx ->. contradiction.
Qed.

(** ** words and spaces *)
Definition r_phrase : re := RSeq (mk_rep false (RSeq (plus r_ns) (RSeq (mk_rep true (r_lit " ") 1 (Some 1)) REps)) 1 None) (RSeq (plus r_ns) REps).
Lemma d_sp1 : denotes (RSeq (mk_rep true (r_lit " ") 1 (Some 1)) REps) (fun w => w = $" ").
Proof.
  apply d_single. eapply d_iff; [apply (d_run (fun x => x = " "%char)); [apply d_lit|lia]|]. intros w. split.
  - intros [Hl HF]. destruct w as [|x [|y w]]; cbn in Hl; try lia. inversion HF; subst. reflexivity.
  - intros ->. split; [cbn; lia|]. repeat constructor.
Qed.
Lemma d_phrase : denotes r_phrase p_phrase.
Proof.
  eapply d_iff.
  { apply d_seq; [|apply d_single, d_word]. apply d_rep; [exact (d_seq _ _ _ _ d_word d_sp1)| |exact I]. left.
    intros (a & b & E & [Ha _] & _). destruct a; [congruence|discriminate]. }
  intros w. split.
  - intros (x & y & -> & (ws & -> & HF & Hl & _) & Hy).
    assert (H : forall ws, Forall (cat word (fun w => w = $" ")) ws -> exists vs, length vs = length ws /\ Forall word vs /\
      forall y, concat ws ++ y = join $" " (vs ++ [y])).
    { clear. induction 1 as [|w ws (a & b & -> & Ha & ->) HF (vs & H1 & H2 & H3)].
      - exists []. repeat split. constructor.
      - exists (a :: vs). split; [cbn; now rewrite H1|]. split; [now constructor|]. intros y. cbn [concat app]. rewrite <- !app_assoc, H3.
        destruct (vs ++ [y]) eqn:E; [destruct vs; discriminate|reflexivity]. }
    destruct (H ws HF) as (vs & H1 & H2 & H3). exists (vs ++ [y]). split; [rewrite app_length; cbn [length]; lia|].
    split; [apply Forall_app; split; [exact H2|constructor; [exact Hy|constructor]]|apply H3].
  - intros (ws & Hl & HF & ->). assert (Hne : ws <> []) by (destruct ws; [cbn in Hl; lia|discriminate]).
    destruct (exists_last Hne) as (vs & y & ->). apply Forall_app in HF as [HF Hy]. inversion Hy as [|? ? Hy' _]; subst.
    rewrite app_length in Hl. cbn [length] in Hl. exists (concat (map (fun v => v ++ $" ") vs)), y. split; [|split; [|exact Hy']].
    + clear. induction vs as [|v vs IH]; [reflexivity|]. cbn [app map concat]. rewrite <- !app_assoc, <- IH.
      destruct (vs ++ [y]) eqn:E; [destruct vs; discriminate|reflexivity].
    + exists (map (fun v => v ++ $" ") vs). rewrite map_length. repeat split; [|lia]. apply Forall_map. eapply Forall_impl; [|exact HF].
      intros v Hv. exists v, $" ". auto.
Qed.
Theorem pat_PHRASE : names_pattern $"PHRASE" p_phrase.
Proof. eexists. exists r_phrase. split; [reflexivity|]. split; [vm_compute; reflexivity|exact d_phrase]. Qed.
Theorem pat_ORPHRASE : names_pattern $"ORPHRASE" p_orphrase.
Proof.
  eexists. exists (RAlt (RSeq (plus r_ns) REps) r_phrase). split; [reflexivity|]. split; [vm_compute; reflexivity|].
  eapply d_iff; [exact (d_alt _ _ _ _ (d_single _ _ d_word) d_phrase)|]. intros w. split.
  - intros [H|(ws & Hl & HF & ->)]; [exists [w]; repeat split; [cbn; lia|constructor; [assumption|constructor]]|]. exists ws. repeat split; [lia|exact HF].
  - intros (ws & Hl & HF & ->). destruct ws as [|a [|b ws]]; [cbn in Hl; lia| |].
    + left. now inversion HF.
    + right. exists (a :: b :: ws). repeat split; [cbn; lia|exact HF].
Qed.
Lemma d_sps : denotes (RSeq (plus (r_lit " ")) REps) (fun w => exists n, w = repeat " "%char (S n)).
Proof.
  apply d_single. eapply d_iff; [apply (d_plus (fun x => x = " "%char)), d_lit|]. intros w. split.
  - intros [Hn HF]. destruct HF as [|x w -> HF]; [congruence|]. exists (length w). cbn [repeat]. f_equal. clear Hn.
    induction HF as [|y w -> HF IH]; [reflexivity|]. cbn [length repeat]. now rewrite <- IH.
  - intros (n & ->). split; [discriminate|]. apply Forall_forall. intros x Hx. now apply repeat_spec in Hx.
Qed.
Theorem pat_ROW : names_pattern $"ROW" p_row.
Proof.
  eexists. exists (RSeq (mk_rep false (RSeq (plus r_ns) (RSeq (plus (r_lit " ")) REps)) 1 None) (RSeq (plus r_ns) REps)).
  split; [reflexivity|]. split; [vm_compute; reflexivity|].
  eapply d_iff.
  { apply d_seq; [|apply d_single, d_word]. apply d_rep; [exact (d_seq _ _ _ _ d_word d_sps)| |exact I]. left.
    intros (a & b & E & [Ha _] & _). destruct a; [congruence|discriminate]. }
  intros w. split.
  - intros (x & y & -> & (ws & -> & HF & Hl & _) & Hy). destruct HF as [|v ws Hv HF]; [cbn in Hl; lia|]. clear Hl.
    revert v Hv. induction HF as [|v2 ws Hv2 HF IH]; intros v (a & b & -> & Ha & n & ->).
    + cbn [concat]. rewrite app_nil_r, <- app_assoc. now apply row_two.
    + specialize (IH _ Hv2). cbn [concat] in *. rewrite <- !app_assoc in *. now apply row_more.
  - induction 1 as [a n b Ha Hb|a n w Ha _ (x & y & -> & (ws & -> & HF & Hl & _) & Hy)].
    + exists (a ++ repeat " "%char (S n)), b. split; [now rewrite <- app_assoc|]. split; [|exact Hb].
      exists [a ++ repeat " "%char (S n)]. split; [cbn; now rewrite app_nil_r|]. repeat split; [|cbn; lia]. constructor; [|constructor].
      exists a, (repeat " "%char (S n)). repeat split; [apply Ha|apply Ha|]. now exists n.
    + exists ((a ++ repeat " "%char (S n)) ++ concat ws), y. split; [now rewrite <- !app_assoc|]. split; [|exact Hy].
      exists ((a ++ repeat " "%char (S n)) :: ws). repeat split; [|cbn; lia]. constructor; [|exact HF].
      exists a, (repeat " "%char (S n)). repeat split; [apply Ha|apply Ha|]. now exists n.
Qed.

(** ** fields followed by a separator *)
Lemma fields_join (P : str -> Prop) (sep : str) n w :
  cat (many n (Some n) (cat P (fun w => w = sep))) P w <-> exists ws, length ws = S n /\ Forall P ws /\ w = join sep ws.
Proof.
  split.
  - intros (x & y & -> & (ws & -> & HF & H1 & H2) & Hy). assert (Hl : length ws = n) by lia. clear H1 H2. subst n.
    induction HF as [|v ws (a & b & -> & Ha & ->) HF (vs & E1 & E2 & E3)].
    + exists [y]. repeat split. constructor; [assumption|constructor].
    + exists (a :: vs). split; [cbn; now rewrite E1|]. split; [now constructor|]. cbn [concat]. rewrite <- !app_assoc, E3.
      destruct vs; [discriminate|reflexivity].
  - intros (ws & Hl & HF & ->). revert n Hl. induction HF as [|a ws Ha HF IH]; intros n Hl; [discriminate|].
    destruct ws as [|b ws].
    + injection Hl as <-. exists [], a. repeat split; [|exact Ha]. exists []. repeat split; [constructor| |]; cbn; lia.
    + destruct n as [|n]; [discriminate|]. destruct (IH n) as (x & y & E & (vs & -> & HF' & H1 & H2) & Hy); [cbn [length] in *; lia|].
      change (join sep (a :: b :: ws)) with (a ++ sep ++ join sep (b :: ws)). rewrite E.
      exists ((a ++ sep) ++ concat vs), y. split; [now rewrite <- !app_assoc|]. split; [|exact Hy].
      exists ((a ++ sep) :: vs). repeat split; [|cbn; lia|cbn; lia]. constructor; [|exact HF']. now exists a, sep.
Qed.
Definition r_dot1 : re := RSeq (r_lit ".") REps.
Lemma d_lit1 c : denotes (RSeq (r_lit c) REps) (fun w => w = [c]).
Proof. apply d_single. eapply d_iff; [apply d_lit|]. intros w. split; [intros (x & -> & ->); reflexivity|intros ->; now exists c]. Qed.
Lemma d_then_lit r P c : denotes r P -> denotes (RSeq r (RSeq (r_lit c) REps)) (cat P (fun w => w = [c])).
Proof. intros H. exact (d_seq _ _ _ _ H (d_lit1 c)). Qed.
Definition r_oct : re := mk_rep true r_09 1 (Some 3).
Definition r_ip (tail : re) : re := RSeq (mk_rep true (RSeq r_oct (RSeq (r_lit ".") REps)) 3 (Some 3)) (RSeq r_oct tail).
Lemma d_ip tail T : denotes tail T -> denotes (r_ip tail) (cat p_ip T).
Proof.
  intros HT. unfold r_ip. assert (HO : denotes r_oct (run_of digit 1 3)) by (apply d_run; [apply d_09|lia]).
  eapply d_iff.
  { apply d_seq; [|exact (d_seq _ _ _ _ HO HT)]. refine (d_rep true _ _ 3 (Some 3) (d_then_lit _ _ "." HO) _ _); [right; discriminate|lia]. }
  intros w. split.
  - intros (x & y & -> & Hx & a & b & -> & Ha & Hb). exists (x ++ a), b. split; [now rewrite app_assoc|]. split; [|exact Hb].
    apply (fields_join (run_of digit 1 3) $"." 3). now exists x, a.
  - intros (a & b & -> & Ha & Hb). apply (fields_join (run_of digit 1 3) $"." 3) in Ha as (x & y & -> & Hx & Hy).
    exists x, (y ++ b). split; [now rewrite app_assoc|]. split; [exact Hx|]. now exists y, b.
Qed.
Theorem pat_IP : names_pattern $"IP" p_ip.
Proof.
  eexists. exists (r_ip REps). split; [reflexivity|]. split; [vm_compute; reflexivity|]. eapply d_iff; [apply d_ip, d_eps|]. intros w. apply cat_eps.
Qed.
Theorem pat_PREFIX : names_pattern $"PREFIX" p_prefix.
Proof.
  eexists. exists (r_ip (RSeq (r_lit "/") (RSeq (mk_rep true r_09 1 (Some 2)) REps))). split; [reflexivity|]. split; [vm_compute; reflexivity|].
  eapply d_iff. { apply d_ip. apply d_seq; [apply d_lit|]. apply d_single. apply (d_run digit); [apply d_09|lia]. }
  intros w. split.
  - intros (a & b & -> & Ha & x & n & -> & (? & -> & ->) & Hn). now exists a, n.
  - intros (a & n & Ha & Hn & ->). exists a, ("/"%char :: n). repeat split; [exact Ha|]. exists $"/", n. repeat split; [|apply Hn|apply Hn|apply Hn]. now exists "/"%char.
Qed.

(** ** IPv6 *)
Definition r_h4 : re := mk_rep true r_hex1 1 (Some 4).
Definition r_v6 (tail : re) : re :=
  RSeq (mk_rep true (RAlt (RSeq r_h4 (RSeq (r_lit ":") REps)) (RSeq (r_lit ":") REps)) 1 (Some 7))
       (RSeq (RAlt (RSeq r_h4 REps) (RSeq (mk_rep true (r_lit ":") 0 (Some 1)) REps)) tail).
Lemma h4_cases w : run_of hex 0 4 w <-> run_of hex 1 4 w \/ w = [].
Proof.
  unfold run_of. split.
  - intros [Hl HF]. destruct w; [now right|left]. split; [cbn [length] in *; lia|exact HF].
  - intros [[Hl HF]| ->]; [split; [lia|exact HF]|]. split; [cbn; lia|constructor].
Qed.
Lemma d_opt_colon : denotes (RSeq (mk_rep true (r_lit ":") 0 (Some 1)) REps) (fun w => w = [] \/ w = $":").
Proof.
  apply d_single. eapply d_iff; [apply (d_run (fun x => x = ":"%char)); [apply d_lit|lia]|]. intros w. split.
  - intros [Hl HF]. destruct w as [|x [|y w]]; cbn in Hl; try lia; [now left|]. inversion HF; subst. now right.
  - intros [-> | ->]; (split; [cbn; lia|]); repeat constructor.
Qed.
Lemma v6_fields w :
  cat (many 1 (Some 7) (fun w => cat (run_of hex 1 4) (fun w => w = $":") w \/ w = $":")) (fun w => run_of hex 1 4 w \/ (w = [] \/ w = $":")) w <-> p_ipv6 w.
Proof.
  assert (E1 : forall w, (cat (run_of hex 1 4) (fun w => w = $":") w \/ w = $":") <-> cat (run_of hex 0 4) (fun w => w = $":") w).
  { intros v. split.
    - intros [(a & b & -> & Ha & ->)| ->]; [exists a, $":"|exists [], $":"]; repeat split; try apply h4_cases; auto; constructor.
    - intros (a & b & -> & Ha & ->). apply h4_cases in Ha as [Ha| ->]; [left; now exists a, $":"|now right]. }
  set (A := cat (run_of hex 0 4) (fun w => w = $":")) in *.
  assert (E2 : forall w, many 1 (Some 7) (fun w => cat (run_of hex 1 4) (fun w => w = $":") w \/ w = $":") w <-> exists n, 1 <= n <= 7 /\ many n (Some n) A w).
  { intros v. split.
    - intros (ws & -> & HF & H1 & H2). exists (length ws). split; [lia|]. exists ws. repeat split; [|lia|lia]. eapply Forall_impl; [|exact HF]. intros x. apply E1.
    - intros (n & Hn & ws & -> & HF & H1 & H2). exists ws. repeat split; [|lia|lia]. eapply Forall_impl; [|exact HF]. intros x. apply E1. }
  split.
  - intros (x & y & -> & Hx & Hy). apply E2 in Hx as (n & Hn & Hx).
    assert (Hy' : run_of hex 0 4 y \/ y = $":") by (destruct Hy as [Hy|[Hy|Hy]]; [left; apply h4_cases; now left|left; apply h4_cases; now right|now right]).
    clear Hy. destruct Hy' as [Hy| ->].
    + destruct (proj1 (fields_join (run_of hex 0 4) $":" n (x ++ y))) as (ws & H1 & H2 & H3); [now exists x, y|].
      exists ws. repeat split; [exact H2|exact H3|left; lia].
    + (* x ++ ":" : one more field, both last fields empty *)
      destruct (proj1 (fields_join (run_of hex 0 4) $":" n (x ++ []))) as (ws & H1 & H2 & H3).
      { exists x, []. repeat split; [exact Hx|cbn; lia|cbn; lia|constructor]. }
      rewrite app_nil_r in H3.
      assert (Hj : x ++ $":" = join $":" (ws ++ [[]])).
      { rewrite H3. assert (Hn0 : ws <> []) by (destruct ws; [discriminate|discriminate]). clear -Hn0. induction ws as [|a ws IH]; [congruence|].
        destruct ws as [|b ws]; [cbn [app join]; reflexivity|]. change (join $":" (a :: b :: ws)) with (a ++ $":" ++ join $":" (b :: ws)).
        change (join $":" ((a :: b :: ws) ++ [[]])) with (a ++ $":" ++ join $":" ((b :: ws) ++ [[]])). rewrite <- IH by discriminate. now rewrite <- !app_assoc. }
      exists (ws ++ [[]]). split; [apply Forall_app; split; [exact H2|]; constructor; [split; [cbn; lia|constructor]|constructor]|]. split; [exact Hj|].
      rewrite app_length. cbn [length]. destruct (Nat.eq_dec n 7) as [->|]; [|left; lia]. right.
      (* the last field of ws is empty: x ends with ":" *)
      destruct Hx as (zs & Ez & HZ & L1 & L2).
      assert (HL : exists vs, ws = vs ++ [[]]).
      { assert (Hsep : forall l, Forall (run_of hex 0 4) l -> Forall (fun f => ~ In ":"%char f) l).
        { intros l. apply Forall_impl. intros f [_ Hf] Hi. rewrite Forall_forall in Hf. specialize (Hf _ Hi). discriminate Hf. }
        assert (Hfs : exists us, length us = 7 /\ Forall (run_of hex 0 4) us /\ x = join $":" (us ++ [[]])).
        { clear -Ez HZ L1 L2. subst x. assert (Hl : length zs = 7) by lia. clear L1 L2. rewrite <- Hl. clear Hl. induction HZ as [|z zs (a & b & -> & Ha & ->) HZ (us & U1 & U2 & U3)].
          - exists []. repeat split. constructor.
          - exists (a :: us). split; [cbn; now rewrite U1|]. split; [now constructor|]. cbn [concat]. rewrite U3, <- app_assoc.
            cbn [app]. destruct (us ++ [[]]) eqn:E; [destruct us; discriminate|reflexivity]. }
        destruct Hfs as (us & U1 & U2 & U3). exists us.
        assert (HS : forall l, l <> [] -> Forall (fun f => ~ In ":"%char f) l -> split $":" (join $":" l) = l) by
          (intros l Hl HF; apply split_join; [assumption|exact HF]).
        rewrite <- (HS ws), <- (HS (us ++ [[]])).
        - now rewrite <- H3, <- U3.
        - destruct us; discriminate.
        - apply Hsep. apply Forall_app. split; [exact U2|]. constructor; [split; [cbn; lia|constructor]|constructor].
        - destruct ws; discriminate.
        - now apply Hsep. }
      destruct HL as (vs & ->). exists vs. rewrite <- app_assoc. split; [reflexivity|]. rewrite app_length in H1. cbn [length] in H1. lia.
  - intros (ws & HF & -> & H). destruct H as [H|(vs & -> & Hl)].
    + destruct (length ws) as [|n] eqn:E; [lia|]. destruct (proj2 (fields_join (run_of hex 0 4) $":" n (join $":" ws))) as (x & y & E' & Hx & Hy).
      { now exists ws. }
      rewrite E'. exists x, y. split; [reflexivity|]. split; [apply E2; exists n; split; [lia|exact Hx]|]. apply h4_cases in Hy. tauto.
    + assert (E : join $":" (vs ++ [[]; []]) = join $":" (vs ++ [[]]) ++ $":").
      { clear. induction vs as [|a vs IH]; [reflexivity|]. cbn [app]. destruct (vs ++ [[]; []]) eqn:E1; [destruct vs; discriminate|].
        destruct (vs ++ [[]]) eqn:E3; [destruct vs; discriminate|]. rewrite <- E1, <- E3 in *.
        assert (J : forall (q : str) ll, ll <> [] -> join $":" (q :: ll) = q ++ $":" ++ join $":" ll) by (intros q ll Hl; destruct ll; [congruence|reflexivity]).
        rewrite !J; [|now destruct vs|now destruct vs]. rewrite IH. now rewrite <- !app_assoc. }
      assert (HF' : Forall (run_of hex 0 4) (vs ++ [[]])).
      { apply Forall_app in HF as [HF _]. apply Forall_app. split; [exact HF|]. constructor; [split; [cbn; lia|constructor]|constructor]. }
      (* vs ++ [[]] has eight fields, the last one empty: seven pieces *)
      exists (concat (map (fun v => v ++ $":") vs)), $":". split.
      * rewrite E. f_equal. clear. induction vs as [|a vs IH]; [reflexivity|]. cbn [app map concat]. rewrite <- IH, <- app_assoc.
        destruct (vs ++ [[]]) eqn:E; [destruct vs; discriminate|reflexivity].
      * split; [|right; now right]. apply E2. exists 7. split; [lia|]. exists (map (fun v => v ++ $":") vs). rewrite map_length. repeat split; [|lia|lia].
        apply Forall_map. apply Forall_app in HF as [HF _]. eapply Forall_impl; [|exact HF]. intros v Hv. now exists v, $":".
Qed.
Lemma d_v6 tail T : denotes tail T -> denotes (r_v6 tail) (cat p_ipv6 T).
Proof.
  intros HT. assert (HH : denotes r_h4 (run_of hex 1 4)) by (apply d_run; [apply d_hex1|lia]).
  eapply d_iff.
  { apply d_seq; [|apply d_seq; [exact (d_alt _ _ _ _ (d_single _ _ HH) d_opt_colon)|exact HT]].
    refine (d_rep true _ _ 1 (Some 7) (d_alt _ _ _ _ (d_then_lit _ _ ":" HH) (d_lit1 ":")) _ _); [right; discriminate|lia]. }
  intros w. split.
  - intros (x & y & -> & Hx & a & b & -> & Ha & Hb). exists (x ++ a), b. split; [now rewrite app_assoc|]. split; [|exact Hb].
    apply v6_fields. now exists x, a.
  - intros (a & b & -> & Ha & Hb). apply v6_fields in Ha as (x & y & -> & Hx & Hy).
    exists x, (y ++ b). split; [now rewrite app_assoc|]. split; [exact Hx|]. now exists y, b.
Qed.
Theorem pat_IPV6 : names_pattern $"IPV6" p_ipv6.
Proof.
  eexists. exists (r_v6 REps). split; [reflexivity|]. split; [vm_compute; reflexivity|]. eapply d_iff; [apply d_v6, d_eps|]. intros w. apply cat_eps.
Qed.
Theorem pat_PREFIXV6 : names_pattern $"PREFIXV6" p_prefixv6.
Proof.
  eexists. exists (r_v6 (RSeq (r_lit "/") (RSeq (mk_rep true r_09 1 (Some 3)) REps))). split; [reflexivity|]. split; [vm_compute; reflexivity|].
  eapply d_iff. { apply d_v6. apply d_seq; [apply d_lit|]. apply d_single. apply (d_run digit); [apply d_09|lia]. }
  intros w. split.
  - intros (a & b & -> & Ha & x & n & -> & (? & -> & ->) & Hn). now exists a, n.
  - intros (a & n & Ha & Hn & ->). exists a, ("/"%char :: n). repeat split; [exact Ha|]. exists $"/", n. repeat split; [|apply Hn|apply Hn|apply Hn]. now exists "/"%char.
Qed.

(** ** MAC addresses *)
Definition r_sep : re := RAlt (RSeq (r_lit ":") REps) (RAlt (RSeq (r_lit ".") REps) (RSeq (r_lit "-") REps)).
Lemma d_sep : denotes r_sep (fun w => exists c, w = [c] /\ mac_sep c).
Proof.
  eapply d_iff; [exact (d_alt _ _ _ _ (d_lit1 ":") (d_alt _ _ _ _ (d_lit1 ".") (d_lit1 "-")))|]. intros w. unfold mac_sep. split.
  - intros [-> |[-> | ->]]; eexists; (split; [reflexivity|]); tauto.
  - intros (c & -> & [-> |[-> | ->]]); tauto.
Qed.
Definition r_mac (k n : nat) : re :=
  RSeq (mk_rep true (RSeq (mk_rep true r_hex2 k (Some k)) (RSeq r_sep REps)) n (Some n)) (RSeq (RSeq (mk_rep true r_hex2 k (Some k)) REps) REps).
Lemma d_mac k n : denotes (r_mac k n) (p_fields k (S n)).
Proof.
  assert (HH : denotes (mk_rep true r_hex2 k (Some k)) (run_of hex k k)) by (apply d_run; [apply d_hex2|lia]).
  eapply d_iff.
  { apply d_seq; [|apply d_single, d_single, HH].
    refine (d_rep true _ _ n (Some n) (d_seq _ _ _ _ HH (d_single _ _ d_sep)) _ _); [right; discriminate|lia]. }
  intros w. split.
  - intros (x & y & -> & (ws & -> & HF & H1 & H2) & Hy). assert (Hl : length ws = n) by lia. clear H1 H2. subst n.
    induction HF as [|v ws (a & b & -> & Ha & c & -> & Hc) HF IH]; [cbn; now constructor|].
    cbn [concat length]. rewrite <- !app_assoc. cbn [app]. now constructor.
  - intros H. remember (S n) as m eqn:Em. revert n Em. induction H as [w Hw|m w c v Hw Hc Hv IH]; intros n Em.
    + injection Em as <-. exists [], w. repeat split; [|apply Hw|apply Hw|apply Hw]. exists []. repeat split; [constructor| |]; cbn; lia.
    + injection Em as <-. destruct m as [|m]; [inversion Hv|]. destruct (IH m eq_refl) as (x & y & -> & (ws & -> & HF & H1 & H2) & Hy).
      exists ((w ++ [c]) ++ concat ws), y. split; [now rewrite <- !app_assoc|]. split; [|exact Hy]. exists ((w ++ [c]) :: ws).
      repeat split; [|cbn; lia|cbn; lia]. constructor; [|exact HF]. exists w, [c]. repeat split; [apply Hw|apply Hw|apply Hw|]. now exists c.
Qed.
Theorem pat_MAC : names_pattern $"MAC" p_mac.
Proof.
  eexists. exists (RAlt (r_mac 2 5) (r_mac 4 2)). split; [reflexivity|]. split; [vm_compute; reflexivity|].
  exact (d_alt _ _ _ _ (d_mac 2 5) (d_mac 4 2)).
Qed.

(** ** character classes written by the user *)
Definition part_item (p : cpart) : citem := match p with One c => CChar c | Range a b => CRange a b end.
Lemma class_other c d : c <> d -> is_ch c d = false.
Proof. intros H. unfold is_ch. now destruct (Ascii.eqb_spec c d). Qed.
Lemma step_class_char s neg items c : class_char c -> step_class s neg items c = Some (with_mode s (MClass neg (CChar c :: items))).
Proof.
  intros (H1 & H2 & H3 & H4 & _). unfold step_class. now rewrite !class_other by assumption.
Qed.
Lemma prun_parts ps : Forall part_ok ps -> forall s neg items rest,
  prun (flat_map part_text ps ++ rest) (with_mode s (MClass neg items)) =
  prun rest (with_mode s (MClass neg (rev (map part_item ps) ++ items))).
Proof.
  induction 1 as [|p ps Hp _ IH]; intros s neg items rest; [reflexivity|]. cbn [flat_map map rev]. rewrite <- !app_assoc. destruct p as [c|a b].
  - change (part_text (One c) ++ flat_map part_text ps ++ rest) with (c :: flat_map part_text ps ++ rest). cbn [prun pstep p_mode with_mode].
    rewrite step_class_char by exact Hp. exact (IH s neg (CChar c :: items) rest).
  - destruct Hp as (Ha & Hb & Hab).
    change (part_text (Range a b) ++ flat_map part_text ps ++ rest) with (a :: "-"%char :: b :: flat_map part_text ps ++ rest).
    cbn [prun pstep p_mode with_mode]. rewrite step_class_char by exact Ha. cbn [prun pstep p_mode with_mode].
    change (step_class (with_mode (with_mode s (MClass neg items)) (MClass neg (CChar a :: items))) neg (CChar a :: items) "-")
      with (Some (with_mode (with_mode (with_mode s (MClass neg items)) (MClass neg (CChar a :: items))) (MClassDash neg a items))).
    cbn [prun pstep p_mode with_mode]. destruct Hb as (B1 & B2 & B3 & _). rewrite !class_other by assumption.
    assert (HL : N.ltb (code b) (code a) = false) by (apply N.ltb_ge; exact Hab). rewrite HL. cbn [orb].
    exact (IH s neg (CRange a b :: items) rest).
Qed.
Lemma class_compiles (neg : bool) ps : ps <> [] -> Forall part_ok ps ->
  re_compile ((if neg then $"[^" else $"[") ++ flat_map part_text ps ++ $"]+") = Some (RSeq (plus (RSet neg (map part_item ps))) REps).
Proof.
  intros Hne HF. unfold re_compile.
  assert (E : prun ((if neg then $"[^" else $"[") ++ flat_map part_text ps ++ $"]+") pst0 =
              prun $"]+" (with_mode pst0 (MClass neg (rev (map part_item ps))))).
  { destruct neg.
    - change (prun ($"[^" ++ flat_map part_text ps ++ $"]+") pst0) with (prun (flat_map part_text ps ++ $"]+") (with_mode pst0 (MClass true []))).
      rewrite prun_parts by exact HF. now rewrite app_nil_r.
    - destruct ps as [|p ps]; [congruence|]. rewrite <- (app_nil_r (rev (map part_item (p :: ps)))). rewrite <- prun_parts by exact HF.
      inversion HF as [|? ? Hp _]; subst. cbn [flat_map]. rewrite <- !app_assoc.
      change (prun ($"[" ++ part_text p ++ flat_map part_text ps ++ $"]+") pst0) with (prun (part_text p ++ flat_map part_text ps ++ $"]+") (with_mode pst0 MClass0)).
      assert (HC : exists c t, part_text p = c :: t /\ class_char c) by (destruct p as [c|a b]; [exists c, []|exists a, ["-"%char; b]]; split; try reflexivity; [exact Hp|apply Hp]).
      destruct HC as (c & t & -> & Hc). cbn [app prun pstep p_mode with_mode]. rewrite (class_other c "^") by apply Hc. rewrite (class_other c "]") by apply Hc.
      rewrite !step_class_char by exact Hc. reflexivity. }
  rewrite E. change ($"]+") with (["]"; "+"]%char). cbn [prun pstep p_mode with_mode]. unfold step_class at 1. change (is_ch "]" "]") with true. cbv iota.
  destruct (rev (map part_item ps)) as [|i is_] eqn:Er.
  - exfalso. apply Hne. apply (Logic.f_equal (@rev citem)) in Er. rewrite rev_involutive in Er. destruct ps; [reflexivity|discriminate].
  - rewrite <- Er, rev_involutive. reflexivity.
Qed.
Lemma part_match x ps : existsb (fun i => citem_match i x) (map part_item ps) = true <-> Exists (in_part x) ps.
Proof.
  induction ps as [|p ps IH]; cbn [map existsb]; [split; [discriminate|intros H; inversion H]|].
  rewrite orb_true_iff, IH, Exists_cons. assert (E : citem_match (part_item p) x = true <-> in_part x p); [|tauto].
  destruct p as [c|a b]; cbn [part_item citem_match in_part].
  - destruct (Ascii.eqb_spec c x); split; congruence.
  - unfold between. rewrite andb_true_iff, !N.leb_le. reflexivity.
Qed.
Theorem class_denotes (neg : bool) ps : ps <> [] -> Forall part_ok ps ->
  exists r, re_compile ((if neg then $"[^" else $"[") ++ flat_map part_text ps ++ $"]+") = Some r /\
    denotes r (fun w => w <> [] /\ Forall (fun x => if neg then ~ Exists (in_part x) ps else Exists (in_part x) ps) w).
Proof.
  intros Hne HF. eexists. split; [now apply class_compiles|]. apply d_single.
  apply (d_plus (fun x => if neg then ~ Exists (in_part x) ps else Exists (in_part x) ps)). apply d_one. intros x.
  pose proof (part_match x ps) as HM. unfold set_match. destruct neg, (existsb _ _); cbn; split; intros; try congruence; try tauto.
  - intros H'. apply HM in H'. discriminate.
Qed.
