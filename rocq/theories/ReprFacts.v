(** * ReprFacts: what Python prints for a value is read as that value (for C120). *)
From Coq Require Import Lia DecimalN Decimal DecimalFacts.
From Verif Require Import PyBase DictFacts ResultsFacts StrFacts EscapeFacts OutputFacts Attributes SpecAttr LexFacts LexFacts2 GrammarFacts GrammarFacts2.
Local Open Scope string_scope.
Local Open Scope list_scope.

(** what may follow a value *)
Definition safe (s : str) : Prop := not_next (fun x => a_letter x \/ a_digit x \/ a_quote x \/ x = "."%char) s.
Lemma safe_char c s : (a_letter c \/ a_digit c \/ a_quote c \/ c = "."%char -> False) -> safe (c :: s).
Proof. intros H x t E. injection E as <- _. exact H. Qed.
Lemma safe_nil : safe []. Proof. intros x t E. discriminate. Qed.
Ltac safe_lit := apply safe_char; unfold a_letter, a_digit, a_quote; cbn; intros K; destruct K as [K|[K|[[K|K]|K]]]; [lia|lia|discriminate|discriminate|discriminate].
Lemma safe_comma s : safe (","%char :: s). Proof. safe_lit. Qed.
Lemma safe_colon s : safe (":"%char :: s). Proof. safe_lit. Qed.
Lemma safe_close s : safe ("]"%char :: s). Proof. safe_lit. Qed.
Lemma safe_brace s : safe ("}"%char :: s). Proof. safe_lit. Qed.
Lemma not_next_sub (P Q : ascii -> Prop) s : (forall c, P c -> Q c) -> not_next Q s -> not_next P s.
Proof. intros H K c t E Hc. apply (K c t E). now apply H. Qed.

(** ** strings *)
Lemma hexdigit_ok n : (n < 16)%N -> hex_digit (hexdigit n) n.
Proof.
  intros H. unfold hexdigit. destruct (N.ltb_spec n 10) as [L|L].
  - replace n with (code (chr (48 + n)) - 48)%N at 2 by (unfold code, chr; rewrite N_ascii_embedding by lia; lia). apply hex_dec. unfold a_digit, code, chr. rewrite N_ascii_embedding by lia. lia.
  - replace n with (code (chr (87 + n)) - 97 + 10)%N at 2 by (unfold code, chr; rewrite N_ascii_embedding by lia; lia). apply hex_low. unfold code, chr. rewrite N_ascii_embedding by lia. lia.
Qed.
Lemma code_lt c : (code c < 256)%N.
Proof. unfold code. apply N_ascii_bounded. Qed.
Lemma repr_char_text q c b v : a_quote q -> text_of false q b v -> text_of false q (repr_char q c ++ b) (c :: v).
Proof.
  intros Hq H. unfold repr_char.
  assert (Esc : forall e x, In (e, x) escapes -> text_of false q (["\"%char; e] ++ b) (x :: v)) by (intros e x He; cbn [app]; now apply to_escape).
  destruct (Ascii.eqb_spec c "\") as [->|H1]; cbn [orb]; [apply Esc; cbn; tauto|].
  destruct (Ascii.eqb_spec c q) as [->|H2]; cbn [orb]; [apply Esc; destruct Hq as [->| ->]; cbn; tauto|].
  destruct (Ascii.eqb_spec c nl) as [->|H3]; [apply Esc; cbn; tauto|].
  destruct (Ascii.eqb_spec c tab) as [->|H4]; [apply Esc; cbn; tauto|].
  destruct (N.eqb_spec (code c) 13) as [H5|H5]; [assert (c = chr 13) by (rewrite <- (ascii_N_embedding c); unfold code in H5; now rewrite H5); subst c; apply Esc; cbn; tauto|].
  destruct (printable c); [cbn [app]; now apply to_char|].
  pose proof (code_lt c) as Hc. cbn [app].
  replace c with (chr (number 16 [N.div (code c) 16; N.modulo (code c) 16])) at 3.
  - apply to_hex; [reflexivity|apply hexdigit_ok; apply N.div_lt_upper_bound; lia|apply hexdigit_ok; apply N.mod_lt; lia|exact H].
  - unfold number. cbn [fold_left]. replace ((0 * 16 + code c / 16) * 16 + code c mod 16)%N with (code c).
    + apply ascii_N_embedding.
    + rewrite (N.div_mod (code c) 16) at 1 by lia. lia.
Qed.
Lemma repr_chars q s : a_quote q -> text_of false q (flat_map (repr_char q) s) s.
Proof. intros Hq. induction s as [|c s IH]; cbn [flat_map]; [constructor|]. now apply repr_char_text. Qed.
Lemma repr_str_spells x s ts : safe s -> spells s ts -> spells (repr_str x ++ s) (TStr x :: ts).
Proof.
  intros Hs H. unfold repr_str. set (q := if (existsb (Ascii.eqb squote) _ && _)%bool then _ else _). assert (Hq : a_quote q) by (unfold q, a_quote; destruct (_ && _)%bool; [now left|now right]). clearbody q. cbv zeta.
  cbn [app]. rewrite <- app_assoc. cbn [app]. apply (sp_text [] false q (flat_map (repr_char q) x) x s ts); [now left|exact Hq|now apply repr_chars| |exact H].
  intros _. eapply not_next_sub; [|exact Hs]. intros c <-. tauto.
Qed.

(** ** integers *)
Lemma str_of_N_head n : hd_error (str_of_N n) = Some "0"%char -> str_of_N n = $"0".
Proof.
  unfold str_of_N. assert (E : N.to_uint n = unorm (N.to_uint n)) by (rewrite <- DecimalN.Unsigned.to_of; f_equal; symmetry; apply DecimalN.Unsigned.of_to).
  rewrite E. generalize (N.to_uint n). clear. intros d. unfold unorm. induction d; cbn [nzhead]; try (cbn; intros K; discriminate); [reflexivity|exact IHd].
Qed.
Lemma number_str n : number 10 (digits (str_of_N n)) = n.
Proof. unfold number. rewrite <- number_digits. apply digits_val_str. Qed.
Lemma str_of_N_spells n s ts : safe s -> spells s ts -> spells (str_of_N n ++ s) (TInt (Z.of_N n) :: ts).
Proof.
  intros Hs H. rewrite <- (number_str n) at 2. apply sp_int; [apply str_of_N_ne| | | |exact H].
  - eapply Forall_impl; [|apply str_of_N_dec]. intros c. apply is_dec_iff.
  - intros K. rewrite (str_of_N_head n K). repeat constructor.
  - eapply not_next_sub; [|exact Hs]. tauto.
Qed.
(** ** words *)
Lemma word_spells c n s ts : a_letter c -> Forall (fun x => a_letter x \/ a_digit x) n -> safe s -> spells s ts -> spells ((c :: n) ++ s) (TName (c :: n) :: ts).
Proof. intros Hc Hn Hs H. cbn [app]. apply sp_name; [exact Hc|exact Hn| |exact H]. eapply not_next_sub; [|exact Hs]. tauto. Qed.
Ltac letters := repeat (apply Forall_cons; [left; unfold a_letter; cbn; lia|]); apply Forall_nil.
Lemma op_spells c s ts : operator c -> spells s ts -> spells (c :: s) (TOp c :: ts).
Proof. apply sp_op. Qed.
Ltac op := apply sp_op; [cbn; tauto|].
Lemma space_spells s ts : spells s ts -> spells (" "%char :: s) ts.
Proof. intros H. apply sp_blank; [now left|exact H]. Qed.

(** ** values *)
(** [w] is read as [v] wherever a value may stand *)
Definition reads (w : str) (v : val) : Prop := exists tv, denotes tv v /\ forall s ts, safe s -> spells s ts -> spells (w ++ s) (tv ++ ts).
Lemma reads_key k : exists v, is_key v k /\ reads (repr_key k) v.
Proof.
  destruct k as [s|z|].
  - exists (VStr s). split; [constructor|]. exists [TStr s]. split; [change (VStr s) with (VStr s); replace s with (concat [s]) at 2 by (cbn; apply app_nil_r); apply (de_text [s]); discriminate|]. intros u ts Hs H. now apply repr_str_spells.
  - exists (VInt z). split; [constructor|]. destruct z as [|p|p]; cbn [repr_key str_of_Z].
    + exists [TInt 0]. split; [constructor|]. intros u ts Hs H. apply (str_of_N_spells 0 u ts Hs H).
    + exists [TInt (Zpos p)]. split; [constructor|]. intros u ts Hs H. apply (str_of_N_spells (Npos p) u ts Hs H).
    + exists [TOp "-"%char; TInt (Zpos p)]. split; [change (Zneg p) with (- Zpos p)%Z; constructor|]. intros u ts Hs H. cbn [app]. op. apply (str_of_N_spells (Npos p) u ts Hs H).
  - exists VNone. split; [constructor|]. exists [TName $"None"]. split; [constructor; apply nm_none; reflexivity|]. intros u ts Hs H. cbn [repr_key].
    apply (word_spells "N"%char $"one" u ts); [unfold a_letter; cbn; lia|letters|exact Hs|exact H].
Qed.
Lemma reads_list l : Forall (fun v => reads (py_repr v) v) l -> exists tl, listed tl l /\ forall s ts, safe s -> spells s ts -> spells (join $", " (map py_repr l) ++ s) (tl ++ ts).
Proof.
  induction 1 as [|v l (tv & Hv & Sv) Hl IH]; [exists []; split; [constructor|intros; assumption]|]. destruct l as [|v2 l].
  - exists tv. split; [now constructor|]. exact Sv.
  - destruct IH as (tl & Htl & Stl). exists (tv ++ TOp ","%char :: tl). split; [now constructor|]. intros s ts Hs H.
    change (join $", " (map py_repr (v :: v2 :: l))) with (py_repr v ++ $", " ++ join $", " (map py_repr (v2 :: l))). rewrite <- !app_assoc. apply Sv; [apply safe_comma|]. cbn [app]. op. apply space_spells. now apply Stl.
Qed.
Definition repr_entry (e : key * val) : str := repr_key (fst e) ++ $": " ++ py_repr (snd e).
Lemma reads_dict d : Forall (fun e => reads (py_repr (snd e)) (snd e)) d -> exists tl, paired tl d /\ forall s ts, safe s -> spells s ts -> spells (join $", " (map repr_entry d) ++ s) (tl ++ ts).
Proof.
  induction 1 as [|[k v] d (tv & Hv & Sv) Hl IH]; [exists []; split; [constructor|intros; assumption]|]. cbn [snd] in *. destruct (reads_key k) as (kv & Hk & (tk & Htk & Stk)). destruct d as [|e2 d].
  - exists (tk ++ TOp ":"%char :: tv). split; [now apply pa_one with kv|]. intros s ts Hs H. cbn [map join]. unfold repr_entry. cbn [fst snd]. rewrite <- !app_assoc. apply Stk; [apply safe_colon|]. cbn [app]. op. apply space_spells. now apply Sv.
  - destruct IH as (tl & Htl & Stl). exists (tk ++ TOp ":"%char :: tv ++ TOp ","%char :: tl). split; [now apply pa_more with kv|]. intros s ts Hs H.
    change (join $", " (map repr_entry ((k, v) :: e2 :: d))) with ((repr_key k ++ $": " ++ py_repr v) ++ $", " ++ join $", " (map repr_entry (e2 :: d))). rewrite <- !app_assoc.
    apply Stk; [apply safe_colon|]. cbn [app]. op. apply space_spells. rewrite <- app_assoc. apply Sv; [apply safe_comma|]. cbn [app]. op. apply space_spells. now apply Stl.
Qed.
Lemma dict_of_nodup (d : dict) : forall acc, NoDup (map fst (acc ++ d)) -> fold_left (fun d e => dset d (fst e) (snd e)) d acc = acc ++ d.
Proof.
  induction d as [|[k v] d IH]; intros acc H; cbn [fold_left]; [now rewrite app_nil_r|]. cbn [fst snd].
  assert (K : dget acc k = None).
  { destruct (dget acc k) as [x|] eqn:E; [|reflexivity]. exfalso. apply dget_In in E. rewrite map_app in H. cbn [map fst] in H. apply NoDup_remove_2 in H. apply H. apply in_or_app. left. now apply (in_map fst) in E. }
  rewrite (dset_fresh _ _ _ K), IH; [now rewrite <- app_assoc|]. now rewrite <- app_assoc.
Qed.
Lemma repr_dict_eq d : py_repr (VDict d) = $"{" ++ join $", " (map repr_entry d) ++ $"}".
Proof. reflexivity. Qed.
Theorem repr_reads v : literal v -> reads (py_repr v) v.
Proof.
  induction v as [|b|z|s|l IH|d IH|n] using val_rect'; intros H.
  - exists [TName $"None"]. split; [constructor; apply nm_none; reflexivity|]. intros u ts Hs H'. apply (word_spells "N"%char $"one" u ts); [unfold a_letter; cbn; lia|letters|exact Hs|exact H'].
  - destruct b.
    + exists [TName $"True"]. split; [constructor; apply nm_true; reflexivity|]. intros u ts Hs H'. apply (word_spells "T"%char $"rue" u ts); [unfold a_letter; cbn; lia|letters|exact Hs|exact H'].
    + exists [TName $"False"]. split; [constructor; apply nm_false; reflexivity|]. intros u ts Hs H'. apply (word_spells "F"%char $"alse" u ts); [unfold a_letter; cbn; lia|letters|exact Hs|exact H'].
  - destruct (reads_key (KI z)) as (v & Hk & Hr). inversion Hk; subst. exact Hr.
  - destruct (reads_key (KS s)) as (v & Hk & Hr). inversion Hk; subst. exact Hr.
  - inversion H as [| | | |l' Hl|]; subst. assert (F : Forall (fun v => reads (py_repr v) v) l) by (rewrite Forall_forall in *; intros v Hv; apply IH; [exact Hv|now apply Hl]).
    destruct (reads_list l F) as (tl & Htl & Stl). exists (TOp "["%char :: tl ++ [TOp "]"%char]). split; [now constructor|]. intros s ts Hs H'. cbn [py_repr]. rewrite <- !app_assoc. cbn [app]. op. rewrite <- app_assoc. apply Stl; [apply safe_close|]. cbn [app]. op. exact H'.
  - inversion H as [| | | | |d' Hn Hl]; subst. assert (F : Forall (fun e => reads (py_repr (snd e)) (snd e)) d) by (rewrite Forall_forall in *; intros v Hv; apply IH; [exact Hv|now apply Hl]).
    destruct (reads_dict d F) as (tl & Htl & Stl). exists (TOp "{"%char :: tl ++ [TOp "}"%char]). split.
    + assert (E : dict_of d = d) by (unfold dict_of; now rewrite (dict_of_nodup d [])). rewrite <- E at 1. now constructor.
    + intros s ts Hs H'. rewrite repr_dict_eq. rewrite <- !app_assoc. cbn [app]. op. rewrite <- app_assoc. apply Stl; [apply safe_brace|]. cbn [app]. op. exact H'.
  - inversion H.
Qed.

(** ** calls *)
Definition kw_text (e : str * val) : str := fst e ++ $"=" ++ py_repr (snd e).
Lemma reads_kws ks : Forall (fun e => identifier (fst e) /\ literal (snd e)) ks -> exists ts, supplies ts [] ks /\ forall s u, safe s -> spells s u -> spells (join $", " (map kw_text ks) ++ s) (ts ++ u).
Proof.
  induction 1 as [|[n v] ks [Hi Hv] Hl IH]; [exists []; split; [constructor|intros; assumption]|]. cbn [fst snd] in *. destruct Hi as (c & m & -> & Hc & Hm). apply repr_reads in Hv. destruct Hv as (tv & Hv & Sv).
  assert (W : forall s u, spells s u -> spells ((c :: m) ++ "="%char :: s) (TName (c :: m) :: TOp "="%char :: u)) by (intros s u H; apply word_spells; [exact Hc|exact Hm|safe_lit|op; exact H]).
  destruct ks as [|e2 ks].
  - exists (TName (c :: m) :: TOp "="%char :: tv). split; [now constructor|]. intros s u Hs H. cbn [map join]. unfold kw_text. cbn [fst snd]. rewrite <- !app_assoc. apply W. now apply Sv.
  - destruct IH as (tl & Htl & Stl). exists (TName (c :: m) :: TOp "="%char :: tv ++ TOp ","%char :: tl). split; [now constructor|]. intros s u Hs H.
    change (join $", " (map kw_text ((c :: m, v) :: e2 :: ks))) with (((c :: m) ++ $"=" ++ py_repr v) ++ $", " ++ join $", " (map kw_text (e2 :: ks))). rewrite <- !app_assoc. cbn [app]. apply W.
    rewrite <- app_assoc. apply Sv; [apply safe_comma|]. cbn [app]. op. apply space_spells. now apply Stl.
Qed.
Lemma reads_args args ks : Forall literal args -> Forall (fun e => identifier (fst e) /\ literal (snd e)) ks ->
  exists ts, supplies ts args ks /\ forall s u, safe s -> spells s u -> spells (join $", " (map py_repr args ++ map kw_text ks) ++ s) (ts ++ u).
Proof.
  intros Ha Hk. induction Ha as [|v args Hv Ha IH]; [now apply reads_kws|]. apply repr_reads in Hv. destruct Hv as (tv & Hv & Sv). destruct IH as (tl & Htl & Stl).
  destruct (map py_repr args ++ map kw_text ks) as [|w ws] eqn:E.
  - apply app_eq_nil in E. destruct E as [E1 E2]. apply map_eq_nil in E1, E2. subst. exists tv. split; [now constructor|]. intros s u Hs H. cbn [map app join]. now apply Sv.
  - exists (tv ++ TOp ","%char :: tl). split; [now constructor|]. intros s u Hs H. cbn [map app]. rewrite E. change (join $", " (py_repr v :: w :: ws)) with (py_repr v ++ $", " ++ join $", " (w :: ws)). rewrite <- !app_assoc.
    apply Sv; [apply safe_comma|]. cbn [app]. op. apply space_spells. now apply Stl.
Qed.
Definition args_text (args : list val) (ks : list (str * val)) : str := join $", " (map py_repr args ++ map kw_text ks).
Theorem args_give args ks : Forall literal args -> Forall (fun e => identifier (fst e) /\ literal (snd e)) ks -> argument_names ks -> gives (args_text args ks) args (by_name ks).
Proof.
  intros Ha Hk Hn. destruct (reads_args args ks Ha Hk) as (ts & Hs & Sp). exists ts, ks. split; [|split; [exact Hs|split; [exact Hn|reflexivity]]].
  specialize (Sp [] [] safe_nil sp_end). now rewrite !app_nil_r in Sp.
Qed.
(** no line breaks *)
Lemma lacks_app c (a b : str) : lacks c a -> lacks c b -> lacks c (a ++ b).
Proof. intros Ha Hb K. apply in_app_or in K. destruct K as [K|K]; [now apply Ha|now apply Hb]. Qed.
Lemma lacks_join c sep l : lacks c sep -> Forall (lacks c) l -> lacks c (join sep l).
Proof. intros Hs. induction 1 as [|x l Hx Hl IH]; [intros []|]. destruct l as [|y l]; [exact Hx|]. change (join sep (x :: y :: l)) with (x ++ sep ++ join sep (y :: l)). now repeat apply lacks_app. Qed.
Lemma hexdigit_nl n : (n < 16)%N -> hexdigit n <> nl.
Proof. intros H K. pose proof (hexdigit_ok n H) as E. rewrite K in E. inversion E; unfold a_digit in *; cbn in *; lia. Qed.
Lemma repr_char_nl q c : q <> nl -> lacks nl (repr_char q c).
Proof.
  intros Hq. unfold repr_char. destruct (Ascii.eqb_spec c "\") as [->|H1]; cbn [orb]; [intros K; repeat (destruct K as [K|K]; [discriminate|]); exact K|].
  destruct (Ascii.eqb_spec c q) as [->|H2]; [intros [K|[K|[]]]; [discriminate|congruence]|].
  destruct (Ascii.eqb_spec c nl) as [->|H3]; [intros K; repeat (destruct K as [K|K]; [discriminate|]); exact K|].
  destruct (Ascii.eqb c tab); [intros K; repeat (destruct K as [K|K]; [discriminate|]); exact K|].
  destruct (N.eqb (code c) 13); [intros K; repeat (destruct K as [K|K]; [discriminate|]); exact K|].
  destruct (printable c); [intros [K|[]]; congruence|]. pose proof (code_lt c) as Hc.
  intros [K|[K|[K|[K|[]]]]]; [discriminate|discriminate| |].
  - apply hexdigit_nl in K; [exact K|]. apply N.div_lt_upper_bound; lia.
  - apply hexdigit_nl in K; [exact K|]. apply N.mod_lt; lia.
Qed.
Lemma repr_str_nl s : lacks nl (repr_str s).
Proof.
  unfold repr_str. set (q := if (existsb (Ascii.eqb squote) _ && _)%bool then _ else _). assert (Hq : q <> nl) by (unfold q; destruct (_ && _)%bool; discriminate). clearbody q. cbv zeta. intros [K|K]; [congruence|]. apply in_app_or in K. destruct K as [K|[K|[]]]; [|congruence].
  apply in_flat_map in K. destruct K as (c & _ & K). now apply (repr_char_nl q c Hq).
Qed.
Lemma str_of_N_nl n : lacks nl (str_of_N n).
Proof. intros K. pose proof (str_of_N_dec n) as H. rewrite Forall_forall in H. specialize (H _ K). discriminate. Qed.
Lemma str_of_Z_nl z : lacks nl (str_of_Z z).
Proof. destruct z; cbn [str_of_Z]; [apply str_of_N_nl|apply str_of_N_nl|]. intros [K|K]; [discriminate|now apply str_of_N_nl in K]. Qed.
Ltac lit_nl := intros K; repeat (destruct K as [K|K]; [discriminate|]); exact K.
Lemma repr_key_nl k : lacks nl (repr_key k).
Proof. destruct k; cbn [repr_key]; [apply repr_str_nl|apply str_of_Z_nl|lit_nl]. Qed.
Lemma repr_nl v : lacks nl (py_repr v).
Proof.
  induction v as [|b|z|s|l IH|d IH|n] using val_rect'.
  - lit_nl.
  - destruct b; lit_nl.
  - apply str_of_Z_nl.
  - apply repr_str_nl.
  - cbn [py_repr]. apply lacks_app; [lit_nl|]. apply lacks_app; [|lit_nl]. apply lacks_join; [lit_nl|]. now apply Forall_map.
  - rewrite repr_dict_eq. apply lacks_app; [lit_nl|]. apply lacks_app; [|lit_nl]. apply lacks_join; [lit_nl|]. apply Forall_map. eapply Forall_impl; [|exact IH]. intros e He. unfold repr_entry. apply lacks_app; [apply repr_key_nl|]. apply lacks_app; [lit_nl|exact He].
  - lit_nl.
Qed.
Lemma identifier_nl n : identifier n -> lacks nl n.
Proof.
  intros (c & t & -> & Hc & Ht) [K|K]; [subst c; unfold a_letter in Hc; cbn in Hc; lia|]. rewrite Forall_forall in Ht. specialize (Ht _ K). unfold a_letter, a_digit in Ht. cbn in Ht. lia.
Qed.
Lemma args_text_nl args ks : Forall (fun e => identifier (fst e) /\ literal (snd e)) ks -> lacks nl (args_text args ks).
Proof.
  intros Hk. unfold args_text. apply lacks_join; [lit_nl|]. apply Forall_app. split; apply Forall_map.
  - rewrite Forall_forall. intros v _. apply repr_nl.
  - eapply Forall_impl; [|exact Hk]. intros e [He _]. unfold kw_text. apply lacks_app; [now apply identifier_nl|]. apply lacks_app; [lit_nl|apply repr_nl].
Qed.
Lemma written_eq n args ks : written n args ks = n ++ "("%char :: args_text args ks ++ [")"%char].
Proof. reflexivity. Qed.
Theorem written_means n args ks : call_name n -> Forall literal args -> Forall (fun e => identifier (fst e) /\ literal (snd e)) ks -> argument_names ks ->
  item_means (written n args ks) {| at_name := n; at_args := args; at_kwargs := by_name ks |}.
Proof.
  intros [Hne Hn] Ha Hk Hks. rewrite written_eq.
  assert (Hc : a_call (n ++ "("%char :: args_text args ks ++ [")"%char]) n (args_text args ks)).
  { split; [exact Hne|]. split; [eapply Forall_impl; [|exact Hn]; intros c (Hc & _ & _); exact Hc|]. split.
    - eexists. split; [reflexivity|]. split; [now apply args_text_nl|]. exists []. split; [now left|reflexivity].
    - intros n' t' o' E Hne' (_ & sp & Hsp & Et). destruct (Nat.le_gt_cases (length n) (length n')) as [|Hlt]; [assumption|]. exfalso.
      assert (Hp : exists x w, n = n' ++ x :: w /\ t' = (x :: w) ++ "("%char :: args_text args ks ++ [")"%char]).
      { assert (n' = firstn (length n') n) by (transitivity (firstn (length n') (n' ++ t')); [rewrite firstn_app, firstn_all, Nat.sub_diag, firstn_O; now rewrite app_nil_r|rewrite <- E, firstn_app; replace (length n' - length n) with 0 by lia; now rewrite firstn_O, app_nil_r]).
        pose proof (firstn_skipn (length n') n) as Es. destruct (skipn (length n') n) as [|x w] eqn:Ew; [rewrite app_nil_r in Es; rewrite <- H in Es; subst n'; lia|]. rewrite <- H in Es. exists x, w. split; [now symmetry|].
        rewrite <- Es, <- app_assoc in E. apply app_inv_head in E. now symmetry. }
      destruct Hp as (x & w & En & Et'). rewrite Forall_forall in Hn. destruct (Hn x) as (Hx & Hx' & _); [rewrite En; apply in_or_app; right; now left|].
      rewrite Et in Et'. destruct Hsp as [->|(y & -> & Hy)]; cbn [app] in Et'; congruence. }
  destruct (list_eq_dec ascii_dec (args_text args ks) []) as [E|E].
  - rewrite E in *. assert (args = [] /\ ks = []) as [-> ->]; [|now apply im_empty].
    pose proof (args_give args ks Ha Hk Hks) as (ts & ks' & Hsp & Hsu & _ & Hb). rewrite E in Hsp.
    assert (ts = []) by (apply (spells_fun [] ts []); [exact Hsp|constructor]). subst ts.
    assert (forall a b, supplies [] a b -> a = [] /\ b = []) as G.
    { intros a b G. remember (@nil token) as w eqn:Ew. destruct G as [|? ? G|? ? ? ? ? G| |]; try discriminate; [auto|subst; now apply denotes_ne in G|destruct ts; discriminate]. }
    destruct (G _ _ Hsu) as [-> ->]. split; [reflexivity|]. destruct ks; [reflexivity|discriminate].
  - apply (im_call _ n (args_text args ks)); [exact Hc|exact E|now apply args_give].
Qed.

(** ** lines *)
Lemma strip_end s : no_end_space (strip s).
Proof.
  unfold strip, lstrip, rstrip, rstrip_p. intros w x E.
  assert (G : forall u, match u with [] => True | c :: _ => is_space c = false end -> forall w x, lstrip_p is_space (rev u) = w ++ [x] -> is_space x = false).
  { intros u Hu w' x' E'. assert (K : forall v, exists p, v = p ++ lstrip_p is_space v) by (clear; induction v as [|c v (p & IH)]; [now exists []|]; cbn [lstrip_p]; destruct (is_space c); [exists (c :: p); cbn [app]; now rewrite <- IH|now exists []]).
    destruct (K (rev u)) as (p & Ep). rewrite E', app_assoc in Ep. assert (Eu : u = x' :: rev (p ++ w')) by (rewrite <- (rev_involutive u), Ep, rev_app_distr; reflexivity). rewrite Eu in Hu. exact Hu. }
  apply (G (lstrip_p is_space (rev s))) in E; [exact E|]. clear. generalize (rev s). intros s0. induction s0 as [|c u IH]; cbn [lstrip_p]; [exact I|]. destruct (is_space c) eqn:Ec; [exact IH|exact Ec].
Qed.
Lemma items_eq line : items_in line = items_of line.
Proof. unfold items_in, items_of. change bar with ["|"%char]. apply filter_ext. intros [|c i]; reflexivity. Qed.
Lemma items_end line : Forall no_end_space (items_of line).
Proof. unfold items_of. rewrite Forall_forall. intros i Hi. apply filter_In in Hi. destruct Hi as [Hi _]. apply in_map_iff in Hi. destruct Hi as (w & <- & _). apply strip_end. Qed.
Theorem attributes_iff line l : get_attributes line = Ok l <-> Forall2 item_means (items_of line) l.
Proof.
  unfold get_attributes. rewrite rmap_ok, items_eq. pose proof (items_end line) as H. revert l. induction H as [|i is Hi His IH]; intros l.
  - split; intros K; inversion K; constructor.
  - split; intros K; inversion K as [|? a ? l' Ka Kl]; subst; (constructor; [now apply (get_item_iff i a Hi)|now apply IH]).
Qed.
Theorem attributes_exit line e : get_attributes line = Raise e -> e = SystemExit.
Proof. unfold get_attributes. intros H. apply rmap_raise in H. destruct H as (i & _ & H). now apply get_item_exit in H. Qed.
(** ** a line of calls *)
Lemma lstrip_pre p s : spaces p -> lstrip_p is_space (p ++ s) = lstrip_p is_space s.
Proof. induction 1 as [|c p Hc Hp IH]; [reflexivity|]. cbn [app lstrip_p]. now rewrite Hc. Qed.
Lemma strip_padded p w q : spaces p -> spaces q -> (forall c t, w = c :: t -> is_space c = false) -> no_end_space w -> w <> [] -> strip (p ++ w ++ q) = w.
Proof.
  intros Hp Hq Hw He Hne. unfold strip, lstrip, rstrip, rstrip_p. rewrite app_assoc, rev_app_distr. rewrite lstrip_pre by now apply Forall_rev.
  destruct (rev w) as [|x u] eqn:Er; [assert (w = rev []) by (rewrite <- Er; now rewrite rev_involutive); now subst|].
  assert (Ew : w = rev u ++ [x]) by (rewrite <- (rev_involutive w), Er; reflexivity).
  rewrite rev_app_distr, Er. cbn [app lstrip_p]. rewrite (He _ _ Ew). change (x :: u ++ rev p) with ((x :: u) ++ rev p). rewrite rev_app_distr, rev_involutive. change (rev (x :: u)) with (rev u ++ [x]). rewrite <- Ew, lstrip_pre by exact Hp.
  destruct w as [|c t]; [congruence|]. cbn [lstrip_p]. now rewrite (Hw c t eq_refl).
Qed.
Lemma written_edges n args ks : call_name n -> (forall c t, written n args ks = c :: t -> is_space c = false) /\ no_end_space (written n args ks) /\ written n args ks <> [].
Proof.
  intros [Hne Hn]. rewrite written_eq. destruct n as [|c n]; [congruence|]. inversion Hn as [|? ? (Hc & _) _]; subst. split; [|split; [|discriminate]].
  - intros x t E. cbn [app] in E. congruence.
  - intros w x E. change ((c :: n) ++ "("%char :: args_text args ks ++ [")"%char]) with ((c :: n) ++ ("("%char :: args_text args ks) ++ [")"%char]) in E. rewrite app_assoc in E. apply app_inj_tail in E. destruct E as [_ <-]. reflexivity.
Qed.
Lemma spaces_lack p : spaces p -> lacks "|" p.
Proof. intros H K. unfold spaces in H. rewrite Forall_forall in H. specialize (H _ K). discriminate. Qed.
Theorem line_of_calls l : l <> [] -> Forall call_ok l -> get_attributes (join ["|"%char] (map padded l)) = Ok (map call_of l).
Proof.
  intros Hne H. apply attributes_iff. unfold items_of. rewrite split_join.
  - clear Hne. induction H as [|[[p [[n args] ks]] q] l (Hp & Hq & Hn & Ha & Hk & Hks & Hb) Hl IH]; [constructor|]. cbn [map filter padded call_of].
    destruct (written_edges n args ks Hn) as (H1 & H2 & H3). rewrite (strip_padded p (written n args ks) q Hp Hq H1 H2 H3).
    destruct (str_eqb (written n args ks) []) eqn:E; [apply str_eqb_eq in E; contradiction|]. cbn [negb]. constructor; [now apply written_means|exact IH].
  - destruct l; [congruence|discriminate].
  - apply Forall_map. eapply Forall_impl; [|exact H]. intros [[p [[n args] ks]] q] (Hp & Hq & Hn & Ha & Hk & Hks & Hb). unfold padded.
    apply lacks_app; [now apply spaces_lack|]. apply lacks_app; [|now apply spaces_lack]. exact Hb.
Qed.
