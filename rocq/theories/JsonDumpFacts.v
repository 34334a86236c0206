(** * JsonDumpFacts: the json formatter's text (proofs for C129). *)
From Coq Require Import Permutation Sorting.Sorted.
From Verif Require Import PyBase Results Outputs JsonDump Files SpecVariable SpecAttr SpecFiles SpecOutput SpecJson.
From Verif Require Import DictFacts StrFacts PyEqFacts OutputFacts LexFacts LexFacts2 ReprFacts JsonFacts SessionFacts.
Local Open Scope string_scope.
Local Open Scope list_scope.

(** ** characters *)
Definition with_escape : list (ascii * ascii) := filter (fun p => negb (Ascii.eqb (snd p) "/")) jescapes.
Lemma escaped_in c e : escaped_as c e <-> In (e, c) with_escape.
Proof.
  unfold escaped_as, with_escape. rewrite filter_In. cbn [snd]. rewrite Bool.negb_true_iff. destruct (Ascii.eqb_spec c "/"); intuition congruence.
Qed.
Ltac esc_cases K := unfold with_escape, jescapes in K; cbv in K; repeat (destruct K as [K|K]; [injection K as <- <-|]); [..|destruct K].
Lemma lower_hexdigit n : (n < 16)%N -> lower_hex (hexdigit n) n.
Proof.
  intros H. split; [now apply hexdigit_ok|]. unfold hexdigit. destruct (N.ltb_spec n 10); unfold code, chr; rewrite N_ascii_embedding by lia; lia.
Qed.
Lemma lower_hex_is h n : lower_hex h n -> h = hexdigit n /\ (n < 16)%N.
Proof.
  intros [H U].
  assert (Hh : h = chr (code h)) by (unfold chr, code; now rewrite ascii_N_embedding).
  inversion H as [c D E1 E2|c D E1 E2|c D E1 E2]; subst; unfold a_digit in *.
  - unfold hexdigit. destruct (N.ltb_spec (code h - 48) 10); [|lia]. split; [|lia]. rewrite Hh at 1. f_equal. lia.
  - unfold hexdigit. destruct (N.ltb_spec (code h - 97 + 10) 10); [lia|]. split; [|lia]. rewrite Hh at 1. f_equal. lia.
  - contradiction.
Qed.
Definition codes_with_escape : list N := map (fun p => code (snd p)) with_escape.
Lemma no_escape c : ~ In (code c) codes_with_escape -> forall e, ~ escaped_as c e.
Proof. intros H e K. apply escaped_in in K. apply H. unfold codes_with_escape. apply in_map_iff. now exists (e, c). Qed.
Lemma code_of_inv c n : code c = n -> c = chr n.
Proof. intros <-. unfold chr, code. now rewrite ascii_N_embedding. Qed.
Lemma written_char c : written c (json_char c).
Proof.
  unfold json_char.
  assert (Y : forall x e, c = x -> In (e, x) with_escape -> written c ["\"%char; e]) by (intros x e -> K; apply wr_escape, escaped_in, K).
  destruct (Ascii.eqb_spec c dquote) as [E|N1]; [apply (Y _ _ E); cbv; tauto|].
  destruct (Ascii.eqb_spec c "\") as [E|N2]; [apply (Y _ "\"%char E); cbv; tauto|].
  destruct (Ascii.eqb_spec c nl) as [E|N3]; [apply (Y _ "n"%char E); cbv; tauto|].
  destruct (N.eqb_spec (code c) 13) as [E|N4]; [apply (Y _ "r"%char (code_of_inv _ _ E)); cbv; tauto|].
  destruct (Ascii.eqb_spec c tab) as [E|N5]; [apply (Y _ "t"%char E); cbv; tauto|].
  destruct (N.eqb_spec (code c) 12) as [E|N6]; [apply (Y _ "f"%char (code_of_inv _ _ E)); cbv; tauto|].
  destruct (N.eqb_spec (code c) 8) as [E|N7]; [apply (Y _ "b"%char (code_of_inv _ _ E)); cbv; tauto|].
  assert (Z : forall e, ~ escaped_as c e).
  { intros e K. apply escaped_in in K. esc_cases K; try (now apply N1); try (now apply N2); try (now apply N3); try (now apply N5); try (apply N4; reflexivity); try (apply N6; reflexivity); try (apply N7; reflexivity). }
  unfold between. destruct (N.leb_spec 32 (code c)) as [L|L]; [destruct (N.leb_spec (code c) 126) as [L'|L']|]; cbn [andb].
  - apply wr_self; [lia|exact Z].
  - pose proof (code_lt c). eapply wr_code; [lia|exact Z|apply lower_hexdigit, N.div_lt_upper_bound; lia|apply lower_hexdigit, N.mod_lt; lia|]. rewrite (N.mul_comm _ 16). apply N.div_mod. lia.
  - pose proof (code_lt c). eapply wr_code; [lia|exact Z|apply lower_hexdigit, N.div_lt_upper_bound; lia|apply lower_hexdigit, N.mod_lt; lia|]. rewrite (N.mul_comm _ 16). apply N.div_mod. lia.
Qed.
Lemma escape_unique c e e' : escaped_as c e -> escaped_as c e' -> e = e'.
Proof.
  intros K K'. apply escaped_in in K, K'. unfold with_escape, jescapes in K, K'. cbv in K, K'.
  repeat (destruct K as [K|K]; [injection K as <- <-; repeat (destruct K' as [K'|K']; [try discriminate K'; now injection K'|]); destruct K'|]). destruct K.
Qed.
Lemma written_unique c t t' : written c t -> written c t' -> t = t'.
Proof.
  intros H H'. destruct H as [c e E|c L N|c h1 h2 n1 n2 L N A B C]; inversion H' as [c' e' E'|c' L' N'|c' g1 g2 m1 m2 L' N' A' B' C']; subst; try lia; try (exfalso; eapply N; eassumption); try (exfalso; eapply N'; eassumption).
  - now rewrite (escape_unique _ _ _ E E').
  - reflexivity.
  - apply lower_hex_is in A as [-> A], B as [-> B], A' as [-> A'], B' as [-> B']. assert (n1 = m1 /\ n2 = m2) as [-> ->] by lia. reflexivity.
Qed.
Lemma written_iff c t : written c t <-> t = json_char c.
Proof. split; [intros H; eapply written_unique; [exact H|apply written_char]|intros ->; apply written_char]. Qed.
Lemma f2_map {A B} (f : A -> B) (P : A -> B -> Prop) l r : (forall x y, P x y <-> y = f x) -> (Forall2 P l r <-> r = map f l).
Proof.
  intros H. split.
  - induction 1 as [|x y l r X _ IH]; [reflexivity|]. apply H in X. cbn [map]. now rewrite X, IH.
  - intros ->. induction l as [|x l IH]; constructor; [now apply H|exact IH].
Qed.
Lemma quoted_iff s t : quoted s t <-> t = json_quoted s.
Proof.
  unfold quoted, json_quoted. rewrite flat_map_concat_map. split.
  - intros (ts & F & ->). apply (f2_map json_char _ _ _ written_iff) in F. now rewrite F.
  - intros ->. exists (map json_char s). split; [now apply (f2_map json_char _ _ _ written_iff)|reflexivity].
Qed.

(** ** numbers *)
Definition begun (s : str) : Prop := forall c t, s = c :: t -> c <> "0"%char.
Lemma number_snoc ds d : number 10 (digits (ds ++ [d])) = (number 10 (digits ds) * 10 + (code d - 48))%N.
Proof. unfold number, digits. rewrite map_app, fold_left_app. reflexivity. Qed.
Lemma number_pos s : Forall a_digit s -> begun s -> s <> [] -> (0 < number 10 (digits s))%N.
Proof.
  induction s as [|d s IH] using rev_ind; [congruence|]. intros F B _. rewrite number_snoc. apply Forall_app in F as [F Fd]. destruct s as [|c s].
  - inversion Fd as [|? ? D _]; subst. unfold a_digit in D. assert (d <> "0"%char) by (now apply (B d [])).
    assert (code d <> 48%N) by (intros K; apply code_of_inv in K; now subst d). cbn. lia.
  - assert (0 < number 10 (digits (c :: s)))%N; [|lia]. apply IH; [exact F| |discriminate]. intros x t E. apply (B x (t ++ [d])). exact (Logic.f_equal (fun l => l ++ [d]) E).
Qed.
Lemma number_inj s : forall s', Forall a_digit s -> Forall a_digit s' -> begun s -> begun s' -> number 10 (digits s) = number 10 (digits s') -> s = s'.
Proof.
  induction s as [|d s IH] using rev_ind; intros s' F F' B B' E.
  - destruct s' as [|c s']; [reflexivity|]. pose proof (number_pos _ F' B' ltac:(discriminate)) as P. rewrite <- E in P. cbn in P. lia.
  - destruct s' as [|c s'] using rev_ind.
    + assert (X : s ++ [d] <> []) by (intros X; apply app_eq_nil in X as [_ X]; discriminate). pose proof (number_pos _ F B X) as P. rewrite E in P. cbn in P. lia.
    + clear IHs'. rewrite !number_snoc in E. apply Forall_app in F as [F Fd], F' as [F' Fd']. inversion Fd as [|? ? D _]; subst. inversion Fd' as [|? ? D' _]; subst. unfold a_digit in D, D'.
      assert (X : code d = code c /\ number 10 (digits s) = number 10 (digits s')) by lia. destruct X as [X Y].
      f_equal.
      * apply IH; [exact F|exact F'| | |exact Y]; intros x t Z; [apply (B x (t ++ [d]))|apply (B' x (t ++ [c]))]; rewrite Z; reflexivity.
      * f_equal. apply code_of_inv in X. rewrite X. unfold chr, code. now rewrite ascii_N_embedding.
Qed.
Lemma jnatural_unique s s' n : jnatural s n -> jnatural s' n -> s = s'.
Proof.
  assert (P : forall c ds, a_digit c -> c <> "0"%char -> Forall a_digit ds -> (0 < number 10 (digits (c :: ds)))%N) by (intros c ds D N F; apply number_pos; [now constructor|intros x t E; injection E as <- _; exact N|discriminate]).
  intros H H'. destruct H as [|c ds D N F]; inversion H' as [|c' ds' D' N' F' E]; subst; [reflexivity| | |].
  - specialize (P c' ds' D' N' F'). cbn [digits map] in P. unfold digits in *. rewrite H in P. lia.
  - specialize (P c ds D N F). cbn [digits map] in P. unfold digits in *. lia.
  - symmetry. apply number_inj; [now constructor|now constructor| | |assumption]; intros x t E1; injection E1 as <- _; assumption.
Qed.
Lemma jnatural_str n : jnatural (str_of_N n) n.
Proof.
  pose proof (str_of_N_dec n) as D. pose proof (str_of_N_ne n) as E. pose proof (str_of_N_head n) as H. pose proof (number_str n) as M.
  destruct (str_of_N n) as [|c ds]; [congruence|]. apply Forall_cons_iff in D as [Dc Ds]. destruct (Ascii.eqb_spec c "0"%char) as [->|N].
  - specialize (H eq_refl). injection H as ->. cbn in M. rewrite <- M. constructor.
  - replace n with (number 10 (digits (c :: ds))) at 1. constructor; [now apply is_dec_iff|exact N|]. eapply Forall_impl; [|exact Ds]. intros x. apply is_dec_iff.
Qed.
Lemma decimal_iff z s : decimal z s <-> s = str_of_Z z.
Proof.
  split.
  - intros [n t H|n t H N].
    + rewrite (jnatural_unique _ _ _ H (jnatural_str n)). destruct n; reflexivity.
    + rewrite (jnatural_unique _ _ _ H (jnatural_str n)). destruct n; [congruence|reflexivity].
  - intros ->. destruct z as [|p|p].
    + apply (dc_pos 0), jnatural_str.
    + apply (dc_pos (Npos p)), jnatural_str.
    + apply (dc_neg (Npos p)); [apply jnatural_str|discriminate].
Qed.
Lemma key_text_iff k s : key_text k s <-> s = json_key k.
Proof.
  split.
  - intros [x|z x H|]; [reflexivity|now apply decimal_iff|reflexivity].
  - intros ->. destruct k; cbn [json_key]; constructor. now apply decimal_iff.
Qed.

(** ** layout *)
Lemma rows_iff n ts s : rows n ts s <-> ts <> [] /\ s = line_break n ++ join ($"," ++ line_break n) ts.
Proof.
  change (line_break n) with (new_line n). split.
  - induction 1 as [t|t ts s _ [N ->]]; [now split|]. split; [discriminate|]. destruct ts as [|u ts]; [congruence|]. cbn [join]. rewrite <- !app_assoc. reflexivity.
  - intros [N ->]. induction ts as [|t ts IH]; [congruence|]. destruct ts as [|u ts]; [constructor|]. specialize (IH ltac:(discriminate)).
    replace (new_line n ++ join ($"," ++ new_line n) (t :: u :: ts)) with (new_line n ++ t ++ t_ "," ++ (new_line n ++ join ($"," ++ new_line n) (u :: ts))); [now constructor|].
    cbn [join]. rewrite <- !app_assoc. reflexivity.
Qed.

(** ** sorting *)
Lemma key_before_irr a : ~ key_before a a.
Proof.
  assert (B : forall s, ~ before s s) by (intros s; induction s as [|c s IH]; intros K; inversion K; subst; [lia|auto]).
  intros H. inversion H as [x y K|x y K]; subst; [now apply B in K|lia].
Qed.
Lemma insert_item_ok {A} (x : key * A) l : forall l', StronglySorted key_before (map fst l) -> ~ In (fst x) (map fst l) -> insert_item x l = Ok l' ->
  StronglySorted key_before (map fst l') /\ Permutation (x :: l) l'.
Proof.
  induction l as [|y l IH]; intros l' Hs Hn H; cbn [insert_item] in H.
  - injection H as <-. split; [repeat constructor|reflexivity].
  - destruct (key_lt (fst x) (fst y)) as [[|]|] eqn:E; [| |discriminate]; cbn [rbind] in H.
    + injection H as <-. apply key_lt_before in E. split; [|reflexivity]. cbn [map]. constructor; [exact Hs|]. constructor; [exact E|].
      cbn [map] in Hs. inversion Hs as [|? ? _ Hf]; subst. eapply Forall_impl; [|exact Hf]. intros z. now apply key_before_trans.
    + apply key_lt_false in E as [E|E]; [exfalso; apply Hn; left; now symmetry|].
      destruct (insert_item x l) as [t'|] eqn:Et; [|discriminate]. cbn [rbind] in H. injection H as <-. cbn [map] in Hs.
      inversion Hs as [|? ? Hs' Hf]; subst. destruct (IH t' Hs' (fun K => Hn (or_intror K)) eq_refl) as [H1 H2]. split.
      * cbn [map]. constructor; [exact H1|]. apply Forall_forall. intros z Hz. apply (Permutation_in _ (Permutation_sym (Permutation_map fst H2))) in Hz.
        destruct Hz as [<-|Hz]; [exact E|]. rewrite Forall_forall in Hf. now apply Hf.
      * rewrite perm_swap. now constructor.
Qed.
Lemma sort_from {A} (l : list (key * A)) : forall acc l', NoDup (map fst l) -> (forall x, In x (map fst acc) -> ~ In x (map fst l)) -> StronglySorted key_before (map fst acc) ->
  rfold (fun acc x => insert_item x acc) l acc = Ok l' -> StronglySorted key_before (map fst l') /\ Permutation (acc ++ l) l'.
Proof.
  induction l as [|x l IH]; intros acc l' Hn Hd Hs H; cbn [rfold] in H.
  - injection H as <-. split; [exact Hs|]. now rewrite app_nil_r.
  - destruct (insert_item x acc) as [a'|] eqn:E; [|discriminate]. cbn [rbind] in H. cbn [map] in Hn. inversion Hn as [|? ? Hk Hn']; subst.
    destruct (insert_item_ok x acc a' Hs) as [H1 H2]; [intros K; apply (Hd _ K); now left|exact E|].
    destruct (IH a' l') as [K1 K2]; [exact Hn'| |exact H1|exact H|].
    + intros z Hz Hi. apply (Permutation_in _ (Permutation_sym (Permutation_map fst H2))) in Hz. destruct Hz as [<-|Hz]; [contradiction|]. apply (Hd _ Hz). now right.
    + split; [exact K1|]. rewrite <- K2, <- H2. cbn [app]. symmetry. apply Permutation_middle.
Qed.
Lemma sort_ok {A} (l l' : list (key * A)) : NoDup (map fst l) -> sort_items l = Ok l' -> StronglySorted key_before (map fst l') /\ Permutation l l'.
Proof. intros N H. apply (sort_from l [] l'); [exact N|intros x []|constructor|exact H]. Qed.
Definition one_kind (ks : list key) : Prop := Forall (fun k => exists s, k = KS s) ks \/ Forall (fun k => exists z, k = KI z) ks.
Lemma key_lt_kind P (HP : P = (fun k => exists s, k = KS s) \/ P = (fun k => exists z, k = KI z)) a b : P a -> P b -> exists r, key_lt a b = Ok r.
Proof. destruct HP as [-> | ->]; intros [x ->] [y ->]; cbn [key_lt]; eauto. Qed.
Lemma insert_total {A} P (HP : P = (fun k => exists s, k = KS s) \/ P = (fun k => exists z, k = KI z)) (x : key * A) l :
  P (fst x) -> Forall (fun y => P (fst y)) l -> exists l', insert_item x l = Ok l' /\ Forall (fun y => P (fst y)) l'.
Proof.
  intros Hx H. induction H as [|y l Hy Hl IH]; cbn [insert_item]; [exists [x]; split; [reflexivity|now repeat constructor]|].
  destruct (key_lt_kind P HP _ _ Hx Hy) as [r ->]. cbn [rbind]. destruct r.
  - eexists. split; [reflexivity|]. now repeat constructor.
  - destruct IH as (l' & -> & Hl'). eexists. split; [reflexivity|]. now constructor.
Qed.
Lemma sort_total {A} P (HP : P = (fun k => exists s, k = KS s) \/ P = (fun k => exists z, k = KI z)) (l : list (key * A)) : forall acc,
  Forall (fun y => P (fst y)) acc -> Forall (fun y => P (fst y)) l -> exists l', rfold (fun acc x => insert_item x acc) l acc = Ok l'.
Proof.
  induction l as [|x l IH]; intros acc Ha Hl; cbn [rfold]; [now eexists|]. inversion Hl as [|? ? Hx Hl']; subst.
  destruct (insert_total P HP x acc Hx Ha) as (a' & -> & Ha'). cbn [rbind]. now apply IH.
Qed.
(** what can be sorted *)
Definition sortable (ks : list key) : Prop := one_kind ks \/ length ks <= 1.
Lemma sort_exists {A} (l : list (key * A)) : sortable (map fst l) -> exists l', sort_items l = Ok l'.
Proof.
  intros [[H|H]|H].
  - apply (sort_total (fun k => exists s, k = KS s) (or_introl eq_refl) l [] (Forall_nil _)). exact (proj1 (Forall_map fst _ l) H).
  - apply (sort_total (fun k => exists z, k = KI z) (or_intror eq_refl) l [] (Forall_nil _)). exact (proj1 (Forall_map fst _ l) H).
  - rewrite map_length in H. destruct l as [|x [|y l]]; [now eexists|now eexists|cbn in H; lia].
Qed.
Lemma sorted_sortable ks : StronglySorted key_before ks -> sortable ks.
Proof.
  intros H. destruct ks as [|k [|k' ks]]; [right; cbn; lia|right; cbn; lia|left]. apply StronglySorted_inv in H as [_ H]. inversion H as [|? ? K F]; subst.
  inversion K; subst; [left|right]; (constructor; [now eexists|constructor; [now eexists|]]); eapply Forall_impl; try exact F; intros x X; inversion X; now eexists.
Qed.
Lemma sortable_perm ks ks' : Permutation ks ks' -> sortable ks -> sortable ks'.
Proof.
  intros P [[H|H]|H]; [left; left|left; right|right]; [now rewrite <- P|now rewrite <- P|]. now rewrite <- (Permutation_length P).
Qed.
Lemma sort_raise {A} (l : list (key * A)) e : sort_items l = Raise e -> e = TypeError.
Proof.
  unfold sort_items. generalize (@nil (key * A)). induction l as [|x l IH]; intros acc; cbn [rfold]; [discriminate|].
  destruct (insert_item x acc) as [a|e'] eqn:E; cbn [rbind]; [apply IH|]. intros K. injection K as <-. clear IH. revert E.
  induction acc as [|y acc IH]; cbn [insert_item]; [discriminate|]. destruct (key_lt (fst x) (fst y)) as [[|]|e2] eqn:L; cbn [rbind].
  - discriminate.
  - destruct (insert_item x acc); cbn [rbind]; [discriminate|]. intros K. apply IH. congruence.
  - intros K. injection K as <-. destruct (fst x), (fst y); cbn in L; congruence.
Qed.
(** sorting is unique *)
Lemma sorted_unique {A} (l : list (key * A)) : forall l', StronglySorted key_before (map fst l) -> StronglySorted key_before (map fst l') -> Permutation l l' -> l = l'.
Proof.
  induction l as [|x l IH]; intros l' S S' P; [now apply Permutation_nil in P|]. destruct l' as [|y l']; [now apply Permutation_sym, Permutation_nil in P|].
  cbn [map] in S, S'. apply StronglySorted_inv in S as [S F], S' as [S' F'].
  assert (x = y) as ->.
  { pose proof (Permutation_in x P (or_introl eq_refl)) as [H|H]; [now symmetry|]. pose proof (Permutation_in y (Permutation_sym P) (or_introl eq_refl)) as [K|K]; [exact K|].
    rewrite Forall_forall in F, F'. exfalso. apply (key_before_irr (fst x)). apply key_before_trans with (fst y); [apply F, in_map, K|apply F', in_map, H]. }
  f_equal. apply IH; [exact S|exact S'|]. now apply Permutation_cons_inv in P.
Qed.

(** ** values *)
Lemma dumps_list n l : json_dumps n (VList l) = do ts <- rmap (json_dumps (S n)) l; Ok (enclosed n "[" "]" ts).
Proof.
  cbn [json_dumps]. match goal with |- rbind (?f l) _ = _ => assert (E : forall l, f l = rmap (json_dumps (S n)) l) by (clear; induction l as [|x l IH]; [reflexivity|]; cbn [rmap]; now rewrite <- IH) end.
  now rewrite E.
Qed.
Definition dump_item (n : nat) (kv : key * val) : res (key * str) := do t <- json_dumps n (snd kv); Ok (fst kv, t).
Definition member_text (kt : key * str) : str := json_quoted (json_key (fst kt)) ++ $": " ++ snd kt.
Lemma dumps_dict n d : json_dumps n (VDict d) = do ts <- rmap (dump_item (S n)) d; do ts <- sort_items ts; Ok (enclosed n "{" "}" (map member_text ts)).
Proof.
  cbn [json_dumps]. match goal with |- rbind (?f d) _ = _ => assert (E : forall d, f d = rmap (dump_item (S n)) d) end.
  { clear. induction d as [|[k x] d IH]; [reflexivity|]. cbn [rmap]. unfold dump_item at 1. cbn [fst snd]. rewrite <- IH. destruct (json_dumps (S n) x); reflexivity. }
  now rewrite E.
Qed.
Lemma dump_item_iff n kv kt : dump_item n kv = Ok kt <-> fst kt = fst kv /\ json_dumps n (snd kv) = Ok (snd kt).
Proof.
  unfold dump_item. destruct (json_dumps n (snd kv)) as [t|e]; cbn [rbind]; [|split; [discriminate|intros [_ K]; discriminate]].
  split; [intros K; injection K as <-; now split|]. destruct kt as [k t']. cbn [fst snd]. intros [-> K]. congruence.
Qed.
Lemma enclosed_nil n o c : enclosed n o c [] = [o; c]. Proof. reflexivity. Qed.
Lemma enclosed_rows n o c ts : ts <> [] -> rows (S n) ts (line_break (S n) ++ join ($"," ++ line_break (S n)) ts) /\
  enclosed n o c ts = [o] ++ (line_break (S n) ++ join ($"," ++ line_break (S n)) ts) ++ new_line n ++ [c].
Proof. intros N. split; [now apply rows_iff|]. unfold enclosed. destruct ts; [congruence|]. rewrite <- !app_assoc. reflexivity. Qed.
Lemma f2_keys {A B} (P : key * A -> key * B -> Prop) d ts : (forall x y, P x y -> fst y = fst x) -> Forall2 P d ts -> map fst ts = map fst d.
Proof. intros H. induction 1 as [|x y d ts X _ IH]; [reflexivity|]. cbn [map]. now rewrite IH, (H _ _ X). Qed.
Lemma f2_flip {A B} (P : A -> B -> Prop) l r : Forall2 P l r -> Forall2 (fun y x => P x y) r l.
Proof. induction 1; now constructor. Qed.
Lemma forall_pair {A} {P Q : A -> Prop} l : Forall P l -> Forall Q l -> Forall (fun x => P x /\ Q x) l.
Proof. intros H K. rewrite Forall_forall in *. auto. Qed.
Lemma f2_iff {A B} (P Q : A -> B -> Prop) l r : Forall (fun x => forall y, P x y <-> Q x y) l -> (Forall2 P l r <-> Forall2 Q l r).
Proof.
  intros H. split; intros K; induction K as [|x y l r X K IH]; constructor; apply Forall_cons_iff in H as [H1 H2]; try (now apply H1); now apply IH.
Qed.
Theorem dumps_iff v : vok v -> forall n t, json_dumps n v = Ok t <-> printed n v t.
Proof.
  induction v as [|b|z|s|l IH|d IH|o] using val_rect'; intros V n t.
  - split; [intros K; injection K as <-; constructor|intros K; inversion K; reflexivity].
  - destruct b; (split; [intros K; injection K as <-; constructor|intros K; inversion K; reflexivity]).
  - cbn [json_dumps]. split; [intros K; injection K as <-; constructor; now apply decimal_iff|]. intros K. inversion K as [| | |? ? ? D| | | | |]; subst. apply decimal_iff in D. now rewrite D.
  - cbn [json_dumps]. split; [intros K; injection K as <-; constructor; now apply quoted_iff|]. intros K. inversion K as [| | | |? ? ? D| | | |]; subst. apply quoted_iff in D. now rewrite D.
  - inversion V as [| | | | |? Vl|]; subst. rewrite dumps_list.
    assert (M : forall ts, rmap (json_dumps (S n)) l = Ok ts <-> Forall2 (printed (S n)) l ts).
    { intros ts. rewrite rmap_Forall2. apply f2_iff. eapply Forall_impl; [|exact (forall_pair _ IH Vl)]. intros x [X Y] y. now apply X. }
    split.
    + intros K. destruct (rmap (json_dumps (S n)) l) as [ts|] eqn:R; [|discriminate]. cbn [rbind] in K. injection K as <-. pose proof (proj1 (M ts) eq_refl) as R'. clear R. rename R' into R. destruct ts as [|u ts].
      * inversion R; subst. constructor.
      * destruct (enclosed_rows n "[" "]" (u :: ts) ltac:(discriminate)) as [X ->]. eapply pr_list; [exact R|exact X].
    + intros K. inversion K as [| | | | |?|? ? ts s F W| |]; subst; [reflexivity|]. apply M in F. rewrite F. cbn [rbind]. apply rows_iff in W as [W ->]. now rewrite (proj2 (enclosed_rows n "[" "]" ts W)).
  - inversion V as [| | | | | |? Dw Vd]; subst. rewrite dumps_dict. unfold dwf in Dw.
    set (P := fun (kv : key * val) (kt : key * str) => fst kt = fst kv /\ printed (S n) (snd kv) (snd kt)).
    assert (M : forall ts, rmap (dump_item (S n)) d = Ok ts <-> Forall2 P d ts).
    { intros ts. rewrite rmap_Forall2. apply f2_iff. eapply Forall_impl; [|exact (forall_pair _ IH Vd)]. intros x [X Y] y. rewrite dump_item_iff. unfold P. now rewrite (X Y). }
    assert (KP : forall x y, P x y -> fst y = fst x) by (intros x y [X _]; exact X).
    split.
    + intros K. destruct (rmap (dump_item (S n)) d) as [ts|] eqn:R; [|discriminate]. cbn [rbind] in K. destruct (sort_items ts) as [zs|] eqn:S; [|discriminate]. cbn [rbind] in K. injection K as <-.
      pose proof (proj1 (M ts) eq_refl) as R'. clear R. rename R' into R. pose proof (f2_keys P d ts KP R) as Ek. destruct (sort_ok ts zs) as [So Pe]; [now rewrite Ek|exact S|].
      destruct (Permutation_Forall2 Pe (f2_flip _ _ _ R)) as (d' & Pd & F'). apply f2_flip in F'. pose proof (f2_keys P d' zs KP F') as Ek'.
      destruct zs as [|z zs].
      * inversion F'; subst. apply Permutation_sym, Permutation_nil in Pd. subst d. constructor.
      * destruct (enclosed_rows n "{" "}" (map member_text (z :: zs)) ltac:(discriminate)) as [X ->]. eapply pr_dict; [exact Pd|now rewrite <- Ek'| |exact X].
        clear - F'. revert F'. generalize (z :: zs). intros l F'. induction F' as [|x y d' l [X1 X2] _ IH]; constructor; [|exact IH].
        exists (json_key (fst x)), (json_quoted (json_key (fst x))), (snd y). split; [now apply key_text_iff|]. split; [now apply quoted_iff|]. split; [exact X2|]. unfold member_text. now rewrite X1.
    + intros K. inversion K as [| | | | | | |?|? ? d' ts s Pd So F W]; subst; [reflexivity|].
      assert (exists zs, Forall2 P d' zs /\ ts = map member_text zs) as (zs & F' & ->).
      { clear - F. induction F as [|x t d' ts (k & q & y & H1 & H2 & H3 & ->) _ (zs & Z1 & ->)]; [now exists []|]. exists ((fst x, y) :: zs). split; [constructor; [now split|exact Z1]|].
        apply key_text_iff in H1 as ->. apply quoted_iff in H2 as ->. reflexivity. }
      destruct (Permutation_Forall2 (Permutation_sym Pd) F') as (ys & Py & Fy). pose proof (proj2 (M ys) Fy) as R. rewrite R. cbn [rbind].
      pose proof (f2_keys P d ys KP Fy) as Ek. pose proof (f2_keys P d' zs KP F') as Ek'.
      destruct (sort_exists ys) as [zs' S].
      { rewrite Ek. apply (sortable_perm (map fst d')); [now apply Permutation_map, Permutation_sym|]. now apply sorted_sortable. }
      destruct (sort_ok ys zs') as [So' Pe]; [now rewrite Ek|exact S|].
      assert (zs' = zs) as ->. { apply sorted_unique; [exact So'|now rewrite Ek'|]. now rewrite <- Pe, Py. }
      rewrite S. cbn [rbind]. apply rows_iff in W as [W ->]. now rewrite (proj2 (enclosed_rows n "{" "}" _ W)).
  - split; [discriminate|intros K; inversion K].
Qed.

(** ** what has a text *)
Lemma rmap_raise_in {A B} (f : A -> res B) l e : rmap f l = Raise e -> exists x, In x l /\ f x = Raise e.
Proof.
  induction l as [|x l IH]; cbn [rmap]; [discriminate|]. destruct (f x) as [y|e'] eqn:E; cbn [rbind]; [|intros K; exists x; split; [now left|congruence]].
  destruct (rmap f l) as [ys|e']; cbn [rbind]; [discriminate|]. intros K. destruct IH as (z & Z1 & Z2); [congruence|]. exists z. split; [now right|exact Z2].
Qed.
Lemma dumps_raise v : forall n e, json_dumps n v = Raise e -> e = TypeError.
Proof.
  induction v as [|b|z|s|l IH|d IH|o] using val_rect'; intros n e; try discriminate.
  - rewrite dumps_list. destruct (rmap _ l) as [ts|e'] eqn:R; cbn [rbind]; [discriminate|]. intros K. injection K as <-. apply rmap_raise_in in R as (x & X1 & X2). rewrite Forall_forall in IH. exact (IH x X1 _ _ X2).
  - rewrite dumps_dict. destruct (rmap _ d) as [ts|e'] eqn:R; cbn [rbind].
    + destruct (sort_items ts) eqn:S; cbn [rbind]; [discriminate|]. intros K. injection K as <-. eapply sort_raise, S.
    + intros K. injection K as <-. apply rmap_raise_in in R as (x & X1 & X2). rewrite Forall_forall in IH. unfold dump_item in X2. destruct (json_dumps (S n) (snd x)) eqn:E; [discriminate|]. cbn [rbind] in X2. injection X2 as <-. exact (IH x X1 _ _ E).
  - intros K. now injection K as <-.
Qed.
Lemma f2_exists {A B} (P : A -> B -> Prop) l : Forall (fun x => exists y, P x y) l <-> exists r, Forall2 P l r.
Proof.
  split.
  - induction 1 as [|x l [y Y] _ [r R]]; [now exists []|]. exists (y :: r). now constructor.
  - intros [r H]. induction H as [|x y l r X _ IH]; constructor; [now exists y|exact IH].
Qed.
Lemma kinds_iff (d : dict) : sortable (map fst d) <-> Forall (fun kv => exists s, fst kv = KS s) d \/ Forall (fun kv => exists z, fst kv = KI z) d \/ length d <= 1.
Proof. unfold sortable, one_kind. rewrite !Forall_map, map_length. tauto. Qed.
Theorem serializable_iff v : vok v -> forall n, (exists t, json_dumps n v = Ok t) <-> serializable v.
Proof.
  induction v as [|b|z|s|l IH|d IH|o] using val_rect'; intros V n; try solve [split; [intros _; constructor|intros _; cbn [json_dumps]; eauto]].
  - inversion V as [| | | | |? Vl|]; subst. rewrite dumps_list.
    assert (M : (exists ts, rmap (json_dumps (S n)) l = Ok ts) <-> Forall serializable l).
    { setoid_rewrite rmap_Forall2. rewrite <- f2_exists. split; intros H; rewrite Forall_forall in *; intros x X; apply (IH x X (Vl x X) (S n)), H, X. }
    split.
    + intros [t K]. destruct (rmap (json_dumps (S n)) l) as [ts|] eqn:R; [|discriminate]. constructor. apply M. now exists ts.
    + intros K. inversion K as [| | | |? F|]; subst. apply M in F as [ts ->]. cbn [rbind]. eauto.
  - inversion V as [| | | | | |? Dw Vd]; subst. rewrite dumps_dict. unfold dwf in Dw.
    assert (M : (exists ts, rmap (dump_item (S n)) d = Ok ts) <-> Forall (fun kv => serializable (snd kv)) d).
    { setoid_rewrite rmap_Forall2. rewrite <- f2_exists. split; intros H; rewrite Forall_forall in *; intros x X; specialize (H x X).
      - destruct H as [kt H]. apply dump_item_iff in H as [_ H]. apply (IH x X (Vd x X) (S n)). eauto.
      - apply (IH x X (Vd x X) (S n)) in H as [t H]. exists (fst x, t). now apply dump_item_iff. }
    assert (Ek : forall ts, rmap (dump_item (S n)) d = Ok ts -> map fst ts = map fst d).
    { intros ts R. apply rmap_Forall2 in R. eapply f2_keys; [|exact R]. intros x y H. now apply dump_item_iff in H as [H _]. }
    split.
    + intros [t K]. destruct (rmap (dump_item (S n)) d) as [ts|] eqn:R; [|discriminate]. cbn [rbind] in K. destruct (sort_items ts) as [zs|] eqn:S; [|discriminate].
      specialize (Ek ts eq_refl). constructor; [apply M; now exists ts|]. apply kinds_iff. rewrite <- Ek. destruct (sort_ok ts zs) as [So Pe]; [now rewrite Ek|exact S|].
      apply (sortable_perm (map fst zs)); [now apply Permutation_map, Permutation_sym|]. now apply sorted_sortable.
    + intros K. inversion K as [| | | | |? F Q]; subst. apply M in F as [ts R]. specialize (Ek ts R). rewrite R. cbn [rbind]. destruct (sort_exists ts) as [zs ->]; [rewrite Ek; now apply kinds_iff|]. cbn [rbind]. eauto.
  - split; [intros [t K]; discriminate|intros K; inversion K].
Qed.

(** ** reading it back *)
Lemma written_text s ts : Forall2 written s ts -> jtext (concat ts) s.
Proof.
  induction 1 as [|c t s ts W _ IH]; cbn [concat]; [constructor|]. destruct W as [c e [E _]|c L N|c h1 h2 n1 n2 L N [A _] [B _] C].
  - now apply jt_escape.
  - apply jt_char; [| |lia|exact IH]; intros ->; [apply (N (chr 34))|apply (N "\"%char)]; apply escaped_in; cbv; tauto.
  - cbn [app]. change (t_ "\u00" ++ [h1; h2]) with ("\"%char :: "u"%char :: "0"%char :: "0"%char :: [h1; h2]). cbn [app].
    replace c with (chr (n1 * 16 + n2)) by (rewrite <- C; unfold chr, code; apply ascii_N_embedding).
    assert (Z : hex_digit "0" 0) by (exact (hex_dec "0" ltac:(unfold a_digit; cbn; lia))). now apply jt_code.
Qed.
Lemma quoted_text s t : quoted s t -> exists b, t = chr 34 :: b ++ [chr 34] /\ jtext b s.
Proof. intros (ts & F & ->). exists (concat ts). split; [reflexivity|now apply written_text]. Qed.
Lemma blank_line n : jblank (new_line n).
Proof. constructor; [cbn; tauto|]. apply Forall_forall. intros c H. apply repeat_spec in H as ->. cbn. tauto. Qed.
Lemma decimal_value z s : decimal z s -> jvalue s (VInt z).
Proof. intros [n t H|n t H _]; [now constructor|now constructor]. Qed.
Lemma rows_items n w ts s : jblank w -> rows n ts s -> forall vs, Forall2 jvalue ts vs -> jitems (s ++ w) vs.
Proof.
  intros W. induction 1 as [t|t ts s R IH]; intros vs F; inversion F as [|? v ? vs' V F']; subst.
  - inversion F'; subst. rewrite <- app_assoc. apply ji_one; [apply blank_line|exact V|exact W].
  - rewrite <- !app_assoc. change (t_ "," ++ s ++ w) with ([] ++ ","%char :: (s ++ w)). apply ji_more; [apply blank_line|exact V|constructor|now apply IH].
Qed.
Inductive member : str -> str * val -> Prop := mem b k x v : jtext b k -> jvalue x v -> member (chr 34 :: b ++ chr 34 :: t_ ": " ++ x) (k, v).
Lemma rows_members n w ts s : jblank w -> rows n ts s -> forall ms, Forall2 member ts ms -> jmembers (s ++ w) ms.
Proof.
  assert (B : jblank [" "%char]) by (repeat constructor; cbn; tauto).
  intros W. induction 1 as [t|t ts s R IH]; intros ms F; inversion F as [|? m ? ms' M F']; subst; destruct M as [b k x v T V].
  - inversion F'; subst. replace ((new_line n ++ chr 34 :: b ++ chr 34 :: t_ ": " ++ x) ++ w) with (new_line n ++ chr 34 :: b ++ chr 34 :: [] ++ ":"%char :: [" "%char] ++ x ++ w).
    + apply jm_one; [apply blank_line|exact T|constructor|exact B|exact V|exact W].
    + rewrite <- !app_assoc. cbn [app]. rewrite <- !app_assoc. reflexivity.
  - replace ((new_line n ++ (chr 34 :: b ++ chr 34 :: t_ ": " ++ x) ++ t_ "," ++ s) ++ w) with (new_line n ++ chr 34 :: b ++ chr 34 :: [] ++ ":"%char :: [" "%char] ++ x ++ [] ++ ","%char :: (s ++ w)).
    + apply jm_more; [apply blank_line|exact T|constructor|exact B|exact V|constructor|now apply IH].
    + rewrite <- !app_assoc. cbn [app]. rewrite <- !app_assoc. reflexivity.
Qed.
Lemma str_Z_inj a b : str_of_Z a = str_of_Z b -> a = b.
Proof. intros H. pose proof (py_int_str a) as A. rewrite H, py_int_str in A. now injection A. Qed.
Lemma keys_nodup ks : StronglySorted key_before ks -> NoDup (map (fun k => KS (json_key k)) ks).
Proof.
  assert (D : forall a b, key_before a b -> KS (json_key a) <> KS (json_key b)).
  { intros a b H E. injection E as E. apply (key_before_irr a). destruct H as [x y H|x y H]; cbn [json_key] in E; [subst y; now constructor|]. apply str_Z_inj in E as ->. now constructor. }
  induction 1 as [|k ks S IH F]; cbn [map]; constructor; [|exact IH]. intros K. apply in_map_iff in K as (k' & E & K). rewrite Forall_forall in F. exact (D _ _ (F _ K) (eq_sym E)).
Qed.
Theorem printed_read v : forall n t, printed n v t -> exists v', jvalue t v' /\ read_back v v'.
Proof.
  induction v as [|b|z|s|l IH|d IH|o] using val_rect'; intros n t H.
  - inversion H; subst. exists VNone. split; constructor; discriminate.
  - inversion H; subst; (eexists; split; [constructor|constructor; discriminate]).
  - inversion H as [| | |? ? ? D| | | | |]; subst. exists (VInt z). split; [now apply decimal_value|constructor; discriminate].
  - inversion H as [| | | |? ? ? D| | | |]; subst. apply quoted_text in D as (b & -> & T). exists (VStr s). split; [now constructor|constructor; discriminate].
  - inversion H as [| | | | |?|? ? ts s F W| |]; subst.
    + exists (VList []). split; [exact (jv_no_items [] (Forall_nil _))|]. apply rb_list. constructor.
    + assert (exists vs, Forall2 jvalue ts vs /\ Forall2 read_back l vs) as (vs & V1 & V2).
      { clear - F IH. induction F as [|x t l ts X F IHF]; [now exists []|]. apply Forall_cons_iff in IH as [I1 I2]. destruct (I1 _ _ X) as (v' & P & Q). destruct (IHF I2) as (vs & V1 & V2). exists (v' :: vs). split; now constructor. }
      exists (VList vs). split; [|now apply rb_list]. change (t_ "[" ++ s ++ new_line n ++ t_ "]") with ("["%char :: (s ++ new_line n ++ ["]"%char])). rewrite app_assoc. apply jv_items. eapply rows_items; [apply blank_line|exact W|exact V1].
  - inversion H as [| | | | | | |?|? ? d' ts s Pd So F W]; subst.
    + exists (VDict []). split; [exact (jv_no_members [] (Forall_nil _))|]. apply rb_dict; [reflexivity|intros k u []].
    + assert (IH' : Forall (fun kv => forall n t, printed n (snd kv) t -> exists v', jvalue t v' /\ read_back (snd kv) v') d') by (now rewrite <- Pd).
      assert (exists ms, Forall2 member ts ms /\ Forall2 (fun kv m => fst m = json_key (fst kv) /\ read_back (snd kv) (snd m)) d' ms) as (ms & M1 & M2).
      { clear - F IH'. induction F as [|x t d' ts (k & q & y & H1 & H2 & H3 & ->) F IHF]; [now exists []|]. apply Forall_cons_iff in IH' as [I1 I2]. destruct (I1 _ _ H3) as (v' & P & Q). destruct (IHF I2) as (ms & V1 & V2).
        exists ((k, v') :: ms). apply quoted_text in H2 as (b & -> & T). split; constructor; [|exact V1| |exact V2].
        - replace ((chr 34 :: b ++ [chr 34]) ++ t_ ": " ++ y) with (chr 34 :: b ++ chr 34 :: t_ ": " ++ y) by (cbn [app]; now rewrite <- app_assoc). now constructor.
        - split; [now apply key_text_iff|exact Q]. }
      assert (Ek : map fst (map (fun e : str * val => (KS (fst e), snd e)) ms) = map (fun k => KS (json_key k)) (map fst d')).
      { clear - M2. induction M2 as [|x m d' ms [X _] _ IH]; [reflexivity|]. cbn [map fst]. now rewrite IH, X. }
      pose proof (keys_nodup _ So) as ND. rewrite <- Ek in ND.
      assert (Ed : dict_of (map (fun e : str * val => (KS (fst e), snd e)) ms) = map (fun e : str * val => (KS (fst e), snd e)) ms) by (exact (dict_of_nodup _ [] ND)).
      exists (VDict (map (fun e : str * val => (KS (fst e), snd e)) ms)). split.
      * rewrite <- Ed. change (t_ "{" ++ s ++ new_line n ++ t_ "}") with ("{"%char :: (s ++ new_line n ++ ["}"%char])). rewrite app_assoc. apply jv_members. eapply rows_members; [apply blank_line|exact W|exact M1].
      * apply rb_dict.
        -- rewrite map_length. rewrite (Permutation_length Pd). clear - M2. induction M2; cbn; auto.
        -- intros k u Hin. apply (Permutation_in _ Pd) in Hin. exists (json_key k).
           assert (exists u', In (KS (json_key k), u') (map (fun e : str * val => (KS (fst e), snd e)) ms) /\ read_back u u') as (u' & U1 & U2).
           { clear - M2 Hin. induction M2 as [|x m d' ms [X Y] _ IH]; [destruct Hin|]. destruct Hin as [->|Hin]; [exists (snd m); cbn [fst snd] in *; split; [left; now rewrite X|exact Y]|].
             destruct (IH Hin) as (u' & A & B). exists u'. split; [now right|exact B]. }
           exists u'. split; [now apply key_text_iff|]. split; [|exact U2]. apply In_dget; [exact ND|exact U1].
  - inversion H.
Qed.
Theorem dumps_loads v t : vok v -> json_dumps 0 v = Ok t -> exists v', json_loads t = Ok v' /\ read_back v v'.
Proof.
  intros V H. apply (dumps_iff v V) in H. destruct (printed_read v 0 t H) as (v' & J & R). exists v'. split; [|exact R]. apply json_iff. exists [], t, []. rewrite app_nil_r. now repeat split; try constructor.
Qed.
Theorem read_equal v : text_keys v -> forall v', read_back v v' -> veq v v'.
Proof.
  induction v as [|b|z|s|l IH|d IH|o] using val_rect'; intros T v' R; inversion R as [v0 A B|? l' F|? d' L F]; subst; try (now constructor); try (econstructor; reflexivity); try (now exfalso; eapply A); try (now exfalso; eapply B).
  - constructor. inversion T as [v0 A B|? Tl|]; subst; [now exfalso; eapply A|]. clear - F IH Tl. induction F as [|x y l l' X F IHF]; constructor; apply Forall_cons_iff in IH as [I1 I2], Tl as [T1 T2]; [now apply I1|now apply IHF].
  - inversion T as [v0 A B| |? Td]; subst; [now exfalso; eapply B|]. apply veq_dict; [exact L|]. intros k u Hin. destruct (F k u Hin) as (s & u' & K & G & U). rewrite Forall_forall in Td, IH.
    destruct (Td _ Hin) as [[s' E] Tu]. cbn [fst snd] in *. subst k. inversion K; subst. exists u'. split; [exact G|]. now apply (IH _ Hin).
Qed.
