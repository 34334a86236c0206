(** * OutcomeFacts2: every outcome of the lookups, of count, set, let and the comparisons (C133). *)
From Verif Require Import PyBase DictFacts StrFacts MatchFuncs SpecMatch MatchFacts MatchExact SpecVariable SpecText TextFacts InputFacts SpecCalls SpecOutcome OutcomeFacts.
Local Open Scope string_scope.
Local Open Scope list_scope.

Ltac nope := exfalso; match goal with H : forall x, ~ _, K : _ |- _ => exact (H _ K) end.
Lemma dotted_iff n l : dotted_path n l <-> dotted n = l.
Proof.
  unfold dotted_path, dotted. change $"." with (t_ "."). split.
  - intros (ps & H & K). apply cut_iff in H; [|discriminate]. apply strips in K. now subst.
  - intros <-. exists (split (t_ ".") n). split; [apply cut_iff; [discriminate|reflexivity]|now apply strips].
Qed.
Lemma walks_iff p : forall v r, walk_get p v = r <-> walks p v r.
Proof.
  intros v. apply gives.
  - revert v. induction p as [|k p IH]; intros v; [constructor|]. cbn [walk_get]. destruct v as [|b|z|s|l|d|o]; try (apply wk_bad; other).
    destruct (dget d (KS k)) as [x|] eqn:E; [now apply (wk_in _ _ x)|]. rewrite walk_empty. now apply wk_missing.
  - intros a b Ha. revert b. induction Ha as [v|d k x t r E H IH|d k t E|v k t H]; intros b Hb; inversion Hb; subst; try absurd; try congruence.
    assert (x0 = x) by congruence. subst. now apply IH.
Qed.
Lemma same_number_iff v w : same_number v w <-> bool_number v = w.
Proof.
  split; [intros H; destruct H as [| |v H]; try reflexivity; destruct v; try reflexivity; absurd|].
  intros <-. destruct v as [|[]|z|s|l|d|o]; cbn [bool_number]; try constructor; other.
Qed.
Lemma key_of_ok v k : key_of v = Ok k <-> as_key v k.
Proof. split; [destruct v; try discriminate; intros E; injection E as <-; constructor|intros H; now destruct H]. Qed.
Lemma key_of_bad v : (forall k, ~ as_key v k) <-> key_of v = Raise TypeError.
Proof.
  split.
  - intros H. destruct v; try reflexivity; exfalso; eapply H; constructor.
  - intros E k K. apply key_of_ok in K. congruence.
Qed.
Lemma at_pos l i x : at_position l i x <-> exists n, py_pos (length l) i = Some n /\ nth_error l n = Some x.
Proof.
  unfold at_position, py_pos. split.
  - intros (a & b & -> & [->| ->]).
    + exists (length a). rewrite app_length. cbn [length]. replace (Z.ltb _ 0) with false by (symmetry; apply Z.ltb_ge; lia). replace (Z.ltb _ _) with true by (symmetry; apply Z.ltb_lt; lia). rewrite Nat2Z.id. split; [reflexivity|].
      now rewrite nth_error_app2, Nat.sub_diag by lia.
    + exists (length a). rewrite app_length. cbn [length]. replace (Z.ltb _ 0) with true by (symmetry; apply Z.ltb_lt; lia). replace (Z.leb 0 _) with true by (symmetry; apply Z.leb_le; lia).
      split; [f_equal; lia|]. now rewrite nth_error_app2, Nat.sub_diag by lia.
  - intros (n & H & K). destruct (nth_error_split l n K) as (a & b & -> & L). exists a, b. split; [reflexivity|]. rewrite app_length in H. cbn [length] in *. subst n.
    destruct (Z.ltb i 0) eqn:E1; [apply Z.ltb_lt in E1|apply Z.ltb_ge in E1].
    + destruct (Z.leb 0 _) eqn:E2; [|discriminate]. apply Z.leb_le in E2. assert (Z.to_nat (Z.of_nat (length a + S (length b)) + i) = length a) by congruence. right. lia.
    + destruct (Z.ltb i _) eqn:E2; [|discriminate]. assert (Z.to_nat i = length a) by congruence. left. lia.
Qed.
Lemma pos_bound n i k : py_pos n i = Some k -> k < n.
Proof.
  unfold py_pos. destruct (Z.ltb i 0) eqn:E1; [apply Z.ltb_lt in E1|apply Z.ltb_ge in E1].
  - destruct (Z.leb 0 _) eqn:E2; [|discriminate]. apply Z.leb_le in E2. intros H. assert (Z.to_nat (Z.of_nat n + i) = k) by congruence. lia.
  - destruct (Z.ltb i _) eqn:E2; [|discriminate]. apply Z.ltb_lt in E2. intros H. assert (Z.to_nat i = k) by congruence. lia.
Qed.
Lemma index_is t l i : sequence t l -> (exists x, py_index t i = Ok x /\ at_position l i x) \/ (py_index t i = Raise IndexError /\ forall x, ~ at_position l i x).
Proof.
  intros H; destruct H as [l|s].
  - cbn [py_index]. destruct (py_pos (length l) i) as [n|] eqn:E.
    + destruct (nth_error l n) as [x|] eqn:N; [left; exists x; split; [reflexivity|apply at_pos; eauto]|]. apply nth_error_None in N. apply pos_bound in E. lia.
    + right. split; [reflexivity|]. intros x K. apply at_pos in K as (n & K & _). congruence.
  - cbn [py_index]. destruct (py_pos (length s) i) as [n|] eqn:E.
    + destruct (nth_error s n) as [x|] eqn:N.
      * left. exists (VStr [x]). split; [reflexivity|]. apply at_pos. exists n. rewrite map_length. split; [exact E|]. now rewrite nth_error_map, N.
      * apply nth_error_None in N. apply pos_bound in E. lia.
    + right. split; [reflexivity|]. intros x K. apply at_pos in K as (n & K & _). rewrite map_length in K. congruence.
Qed.
Lemma at_one l i x y : at_position l i x -> at_position l i y -> x = y.
Proof. intros H K. apply at_pos in H as (n & H & H'). apply at_pos in K as (m & K & K'). congruence. Qed.
Lemma seq_one t l l' : sequence t l -> sequence t l' -> l = l'. Proof. intros H K; destruct H; now inversion K. Qed.
Lemma asked_is t v : asked t v (subscript t v).
Proof.
  unfold subscript. cbv zeta.
  assert (SEQ : forall l, sequence t l -> asked t v (match bool_number v with VInt i => do x <- py_index t i; Ok (Some x) | _ => Raise TypeError end)).
  { intros l S. destruct (bool_number v) as [|b|i|s|x|d|o] eqn:E; try solve [eapply as_no_number; [exact S|intros i K; apply same_number_iff in K; congruence]].
    apply same_number_iff in E. destruct (index_is t l i S) as [(x & K & P)|(K & P)]; rewrite K; cbn [rbind]; [now apply (as_item _ l _ i)|now apply (as_outside _ l _ i)]. }
  destruct t as [|b|z|s|l|d|o]; try solve [apply as_other; [other|intros l K; inversion K]].
  - apply (SEQ _ (sq_text s)).
  - apply (SEQ _ (sq_list l)).
  - destruct (key_of (bool_number v)) as [k|e] eqn:E; cbn [rbind].
    + apply key_of_ok in E. eapply as_dict; [now apply same_number_iff|exact E].
    + assert (e = TypeError) by (destruct (bool_number v); cbn [key_of] in E; congruence). subst e. assert (E' := proj2 (key_of_bad _) E); clear E; rename E' into E. eapply as_no_key; [now apply same_number_iff|exact E].
Qed.
Lemma asked_iff t v r : subscript t v = r <-> asked t v r.
Proof.
  apply gives; [apply asked_is|]. clear r. intros a b Ha Hb.
  assert (N : forall w w', same_number v w -> same_number v w' -> w = w') by (intros w w' H K; apply same_number_iff in H, K; congruence).
  inversion Ha; subst; inversion Hb; subst; try absurd; try (match goal with S : sequence (VDict _) _ |- _ => inversion S end); try reflexivity;
    repeat match goal with
    | H : same_number v ?x, K : same_number v ?y |- _ => assert (x = y) by (exact (N _ _ H K)); clear K; subst
    | H : sequence t ?x, K : sequence t ?y |- _ => assert (x = y) by (exact (seq_one _ _ _ H K)); clear K; subst
    | H : VInt ?x = VInt ?y |- _ => assert (x = y) by congruence; clear H; subst
    | H : as_key _ _ |- _ => apply key_of_ok in H
    | H : forall k, ~ as_key _ _ |- _ => let K := fresh in assert (K := proj1 (key_of_bad _) H); clear H end;
    try congruence; try nope; try (match goal with H : at_position _ _ ?x, K : at_position _ _ ?y |- _ => assert (x = y) by (eapply at_one; eassumption); now subst end).
Qed.
Lemma answers_iff add data v r : answers add data (Some v) r <-> Ok (answer add data v) = r.
Proof.
  unfold answer. split; [intros H; inversion H; subst; reflexivity|]. intros <-. destruct add; now constructor.
Qed.
Lemma key_as_iff k v : key_as k v <-> key_val k = v.
Proof. split; [intros H; now destruct H|]. intros <-. destruct k; constructor. Qed.
Lemma keys_as ks l : Forall2 key_as ks l <-> map key_val ks = l.
Proof.
  split; [intros H; induction H as [|k v ks l H1 H2 IH]; [reflexivity|]; cbn [map]; apply key_as_iff in H1; congruence|].
  intros <-. induction ks; cbn [map]; constructor; [now apply key_as_iff|assumption].
Qed.
Lemma iterates_iff v r : iter v = r <-> iterates v r.
Proof.
  assert (D : forall (d : dict) l, Forall2 (fun kv v => key_as (fst kv) v) d l <-> map (fun kv => key_val (fst kv)) d = l).
  { intros d l. split; [intros H; induction H as [|k v' ks l' H1 H2 IH]; [reflexivity|]; cbn [map]; apply key_as_iff in H1; congruence|].
    intros <-. induction d; cbn [map]; constructor; [now apply key_as_iff|assumption]. }
  split.
  - intros <-. destruct v as [|b|z|s|l|d|o]; cbn [iter]; try (apply it_bad; other); constructor. now apply D.
  - intros H; destruct H as [l|d l H|s|v H1 H2 H3]; try reflexivity; [apply D in H; cbn [iter]; congruence|]. destruct v; try reflexivity; absurd.
Qed.
Lemma group_iff n l : forall r, find_group n l = r <-> group_table n l r.
Proof.
  intros r. apply gives; clear r.
  - induction l as [|r t IH]; [constructor|]. cbn [find_group]. destruct (py_in n r) as [[]|e] eqn:E; cbn [rbind].
    + destruct r as [|b|z|s|l|d|o]; try solve [apply gt_in_list; [other|now apply text_in_iff]].
      cbn [py_in] in E. unfold dmem in E. destruct (dget d (KS n)) as [x|] eqn:G; [now apply gt_here|congruence].
    + apply gt_next; [now apply text_in_iff|exact IH].
    + apply gt_bad. now apply text_in_iff.
  - intros a b Ha. revert b. induction Ha as [|d x t E|r t N E|r t e E|r t x E H IH]; intros b Hb; inversion Hb; subst; try absurd; try reflexivity; try congruence; try (apply text_in_iff in E); repeat match goal with K : text_in _ _ _ |- _ => apply text_in_iff in K end; try congruence.
    all: try (cbn [py_in] in *; unfold dmem in *; match goal with K : dget _ _ = Some _ |- _ => rewrite K in * end; congruence).
    now apply IH.
Qed.
Lemma template_iff ts n o : template_table ts n o <->
  match find_template n ts with None => None | Some (VList []) => Some (Raise IndexError) | Some (VList (x :: _)) => Some (Ok x) | Some r => Some (Ok r) end = o.
Proof.
  assert (F : forall ts r, find_template n ts = Some r -> exists a b, ts = a ++ (n, r) :: b /\ forall r', ~ In (n, r') a).
  { clear ts o. induction ts as [|[m x] ts IH]; [discriminate|]. intros r. cbn [find_template]. destruct (str_eqb_spec m n) as [->|D].
    - intros E. assert (x = r) by congruence. subst. exists [], ts. split; [reflexivity|]. intros r' [].
    - intros E. destruct (IH r E) as (a & b & -> & K). exists ((m, x) :: a), b. split; [reflexivity|]. intros r' [E'|H]; [congruence|exact (K r' H)]. }
  assert (G : forall a b r, (forall r', ~ In (n, r') a) -> find_template n (a ++ (n, r) :: b) = Some r).
  { induction a as [|[m x] a IH]; intros b r K; cbn [app find_template]; [now rewrite str_eqb_refl|].
    destruct (str_eqb_spec m n) as [->|D]; [exfalso; apply (K x); now left|]. apply IH. intros r' H. apply (K r'). now right. }
  assert (N : forall ts, find_template n ts = None <-> forall r, ~ In (n, r) ts).
  { clear. induction ts as [|[m x] ts IH]; cbn [find_template]; [split; [intros _ r []|reflexivity]|]. destruct (str_eqb_spec m n) as [->|D].
    - split; [discriminate|]. intros H. exfalso. apply (H x). now left.
    - rewrite IH. split; [intros H r [E|K]; [congruence|exact (H r K)]|intros H r K; apply (H r); now right]. }
  split.
  - intros H; destruct H as [H|a b x l -> H|a b -> H|a b r -> H L]; [apply N in H; now rewrite H|..]; rewrite (G a b _ H); try reflexivity. destruct r; try reflexivity. absurd.
  - intros <-. destruct (find_template n ts) as [r|] eqn:E; [|apply tt_none; now apply N]. destruct (F ts r E) as (a & b & -> & K).
    destruct r as [|c|z|s|[|x l]|d|o']; try solve [apply (tt_one _ _ a b); [reflexivity|exact K|other]]; [now apply (tt_empty _ _ a b)|now apply (tt_list _ _ a b x l)].
Qed.
Lemma dotted_ne s : exists n p, dotted s = n :: p.
Proof. unfold dotted. pose proof (split_ne $"." s) as H. destruct (split $"." s) as [|a l]; [congruence|]. cbn [map]. eauto. Qed.
Lemma starts_iff lookups ts results src r : src <> NoSource ->
  starts_at lookups ts results src r <-> lookup_source lookups ts results src = match r with Ok x => Ok (Some x) | Raise e => Raise e end.
Proof.
  intros NS. split.
  - intros H; destruct H as [n p H|s n p v H T|s n p e H T|s n p H T|s n p l v H I G|s n p l e H I G|s e I]; cbn [lookup_source]; try (apply dotted_iff in H; rewrite H; cbn [hd tl]); try reflexivity;
      try (apply template_iff in T; destruct (find_template n ts) as [[| | | |[|y l]| |]|]; congruence);
      try (apply iterates_iff in I; rewrite I; cbn [rbind]); try (apply group_iff in G; rewrite G); reflexivity.
  - destruct src as [s|s|s|]; [..|congruence]; cbn [lookup_source]; destruct (dotted_ne s) as (n & p & E); rewrite E; cbn [hd tl]; pose proof (proj2 (dotted_iff _ _) E) as D.
    + intros K. destruct r as [x|e]; [|discriminate]. assert (x = (lookups, n :: p)) by congruence. subst. now constructor.
    + intros K. pose proof (proj2 (template_iff ts n _) eq_refl) as T. destruct (find_template n ts) as [[|b|z|t|[|y l]|d|o]|]; destruct r as [x|e]; try discriminate K;
        try (match type of K with Ok (Some ?u) = Ok (Some ?v) => assert (v = u) by congruence; subst v end); try (match type of K with Raise ?u = Raise ?v => assert (v = u) by congruence; subst v end);
        solve [eapply sa_template; eassumption|eapply sa_template_bad; eassumption|eapply sa_no_template; eassumption].
    + intros K. destruct (iter results) as [l|e] eqn:I; cbn [rbind] in K; apply iterates_iff in I.
      * destruct (find_group n l) as [v|e] eqn:G; cbn [rbind] in K; apply group_iff in G; destruct r as [x|e']; try discriminate K.
        -- assert (x = (v, p)) by congruence. subst. eapply sa_group; eassumption.
        -- assert (e' = e) by congruence. subst. eapply sa_group_bad; eassumption.
      * destruct r as [x|e']; try discriminate K. assert (e' = e) by congruence. subst. now apply sa_no_results.
Qed.
Lemma source_none : forall lookups ts results src, lookup_source lookups ts results src = Ok None -> src = NoSource.
Proof.
  intros lookups ts results [s|s|s|] H; try reflexivity; exfalso; cbn [lookup_source] in H; [discriminate|..].
  - destruct (find_template _ ts) as [[| | | |[|y l]| |]|]; discriminate.
  - destruct (iter results); cbn [rbind] in H; [|discriminate]. destruct (find_group _ _); discriminate.
Qed.
Theorem lookup_iff lookups ts results data src add r : f_lookup lookups ts results data src add = r <-> lookup_gives lookups ts results data add src r.
Proof.
  unfold f_lookup. destruct (lookup_source lookups ts results src) as [[[t p]|]|e] eqn:S; cbn [rbind].
  - assert (NS : src <> NoSource) by (intros ->; discriminate). pose proof (proj2 (starts_iff _ _ _ _ (Ok (t, p)) NS) S) as ST.
    assert (U : forall x, starts_at lookups ts results src x -> x = Ok (t, p)). { intros x K. apply starts_iff in K; [|exact NS]. destruct x; congruence. }
    apply gives; clear r.
    + destruct (walk_get p t) as [table|e] eqn:W; cbn [rbind]; apply walks_iff in W; [|now apply (lg_no_way _ _ _ _ _ _ t p)].
      destruct (subscript table data) as [o|e] eqn:K; cbn [rbind]; apply asked_iff in K; [|now apply (lg_not_asked _ _ _ _ _ _ t p table)].
      apply (lg_asked _ _ _ _ _ _ t p table o); try assumption. destruct o as [x|]; [now apply answers_iff|constructor].
    + assert (G : forall a, lookup_gives lookups ts results data add src a -> a = match walk_get p t with Raise e => Raise e | Ok table => match subscript table data with Raise e => Raise e | Ok None => becomes data | Ok (Some x) => Ok (answer add data x) end end).
      { intros a H; inversion H; subst; try congruence; match goal with K : starts_at _ _ _ _ _ |- _ => apply U in K; try discriminate K end;
          match goal with K : Ok (?a, ?b) = Ok (t, p) |- _ => assert (a = t) by congruence; assert (b = p) by congruence; subst end;
          match goal with K : walks _ _ _ |- _ => apply walks_iff in K; rewrite K end; try reflexivity;
          match goal with K : asked _ _ _ |- _ => apply asked_iff in K; rewrite K end; try reflexivity.
        destruct o as [x|]; [match goal with K : answers _ _ _ _ |- _ => apply answers_iff in K; now symmetry end|match goal with K : answers _ _ _ _ |- _ => now inversion K end]. }
      intros a b Ha Hb. now rewrite (G a Ha), (G b Hb).
  - apply source_none in S. subst. split; [intros <-; constructor|]. intros H; inversion H; subst; try reflexivity; match goal with K : starts_at _ _ _ NoSource _ |- _ => inversion K end.
  - assert (NS : src <> NoSource) by (intros ->; discriminate). split.
    + intros <-. apply lg_no_start. now apply starts_iff.
    + intros H; inversion H; subst; try congruence; match goal with K : starts_at _ _ _ _ _ |- _ => apply starts_iff in K; [|exact NS]; congruence end.
Qed.

(** ** rlookup *)
Lemma key_inside_iff data d : forall r, rfind data d = r <-> key_inside data d r.
Proof.
  intros r. apply gives; clear r.
  - induction d as [|[k v] d IH]; [constructor|]. cbn [rfind]. destruct k as [s|z|]; try (apply ki_bad; other).
    destruct (containsb s data) eqn:E; [apply containsb_spec in E as (x & y & E); now apply (ki_here _ x y)|].
    apply ki_next; [|exact IH]. intros x y K. assert (containsb s data = true) by (apply containsb_spec; eauto). congruence.
  - intros a b Ha. revert b. induction Ha as [|x y k v d E|k v d r N H IH|k v d N]; intros b Hb; inversion Hb; subst; try reflexivity; try solve [exfalso; eauto]; try solve [exfalso; eapply N; reflexivity]; try (exfalso; match goal with K : forall x y, _ <> _ |- _ => eapply K; reflexivity end).
    all: try (exfalso; match goal with K : forall s, KS ?k <> KS s |- _ => exact (K k eq_refl) end). now apply IH.
Qed.
Theorem rlookup_iff lookups data name add r : f_rlookup lookups data name add = r <-> rlookup_gives lookups data name add r.
Proof.
  unfold f_rlookup. pose proof (proj2 (dotted_iff name _) eq_refl) as D. apply gives; clear r.
  - destruct (walk_get (dotted name) lookups) as [t|e] eqn:W; cbn [rbind]; apply walks_iff in W; [|eapply rl_no_way; eassumption].
    destruct t as [|b|z|s|l|d|o]; try solve [eapply rl_no_table; [eassumption|eassumption|other]].
    destruct (rfind data d) as [o|e] eqn:K; cbn [rbind]; apply key_inside_iff in K; [|eapply rl_bad; eassumption].
    destruct o as [x|]; [|eapply rl_none; eauto]. destruct x as [|b|z|s|l|d'|o] eqn:X; [eapply rl_none; eauto|..]; rewrite <- X in *; (eapply rl_found; [eassumption|eassumption|eassumption|subst; discriminate|subst; now apply answers_iff]).
  - assert (G : forall a, rlookup_gives lookups data name add a -> a = match walk_get (dotted name) lookups with Raise e => Raise e | Ok (VDict d) => match rfind data d with Raise e => Raise e | Ok (Some VNone) | Ok None => becomes (VStr data) | Ok (Some x) => Ok (answer add (VStr data) x) end | Ok _ => becomes (VStr data) end).
    { intros a H; inversion H; subst; match goal with K : dotted_path _ _ |- _ => apply dotted_iff in K; subst end; match goal with K : walks _ _ _ |- _ => apply walks_iff in K; rewrite K end; try reflexivity.
      - destruct v; try reflexivity. absurd.
      - match goal with K : key_inside _ _ _ |- _ => apply key_inside_iff in K; now rewrite K end.
      - match goal with K : key_inside _ _ _ |- _ => apply key_inside_iff in K; rewrite K end. match goal with K : _ \/ _ |- _ => destruct K; subst; reflexivity end.
      - match goal with K : key_inside _ _ _ |- _ => apply key_inside_iff in K; rewrite K end. match goal with K : answers _ _ _ _ |- _ => apply answers_iff in K; rewrite K end. destruct x; try reflexivity. congruence. }
    intros a b Ha Hb. now rewrite (G a Ha), (G b Hb).
Qed.

(** ** gpvlookup *)
Section G.
Variable matching : str -> str -> bool.
Lemma patterns_iff v r : pattern_list v = r <-> patterns_of v r.
Proof.
  unfold pattern_list. apply gives; clear r.
  - destruct (iter v) as [l|e] eqn:E; cbn [rbind]; apply iterates_iff in E; [|now apply po_none].
    destruct (texts_of l) as [[ss ->]|(x & H & K)]; [rewrite as_str_texts; now apply po_texts|rewrite (as_str_bad l x H K); now apply (po_bad _ l x)].
  - assert (G : forall a, patterns_of v a -> a = match iter v with Raise e => Raise e | Ok l => rmap as_str l end).
    { intros a H; destruct H as [v l H|v l x H I K|v e H]; apply iterates_iff in H; rewrite H; [now rewrite as_str_texts|now rewrite (as_str_bad l x I K)|reflexivity]. }
    intros a b Ha Hb. now rewrite (G a Ha), (G b Hb).
Qed.
Lemma repeat_map {A B} (k : B) (l : list A) : map (fun _ => k) l = repeat k (length l).
Proof. induction l; cbn; congruence. Qed.
Lemma keys_iff data (multi : bool) d : forall r, (if multi then gpv_all matching data d else gpv_first matching data d) = r <-> keys_found matching data multi d r.
Proof.
  intros r. apply gives; clear r.
  - destruct multi; induction d as [|[k v] d IH]; try constructor; cbn [gpv_all gpv_first]; (destruct (pattern_list v) as [l|e] eqn:E; cbn [rbind]; apply patterns_iff in E; [|now apply kf_bad]).
    + rewrite repeat_map. destruct (gpv_all matching data d) as [ks|e]; cbn [rbind]; [now apply kf_all|now apply (kf_later _ _ _ _ _ l)].
    + destruct (existsb (matching data) l) eqn:X.
      * apply existsb_exists in X as (p & I & M). now apply (kf_first _ _ _ _ _ l p).
      * apply (kf_next _ _ _ _ _ l); [exact E| |exact IH]. apply Forall_forall. intros p I. destruct (matching data p) eqn:M; [|reflexivity]. assert (existsb (matching data) l = true) by (apply existsb_exists; eauto). congruence.
  - assert (P : forall (v : val) a b, patterns_of v a -> patterns_of v b -> a = b) by (intros v a b H K; apply patterns_iff in H, K; congruence).
    assert (F : forall l p, In p l -> matching data p = true -> Forall (fun p => matching data p = false) l -> False) by (intros l p I M H; rewrite Forall_forall in H; specialize (H p I); congruence).
    intros a b Ha. revert b. induction Ha as [multi|multi k v d e H|k v d l p H I M|k v d l r H N K IH|k v d l ks H K IH|k v d l e H K IH]; intros b Hb; inversion Hb; subst; try reflexivity;
      match goal with X : patterns_of v ?x, Y : patterns_of v ?y |- _ => pose proof (P _ _ _ X Y) as E; try discriminate E; clear Y end; try (match type of E with Ok ?l1 = Ok ?l2 => assert (l1 = l2) by congruence; subst end); try congruence; try (exfalso; eapply F; eassumption); try (now apply IH);
      match goal with X : keys_found _ _ _ _ _ |- _ => apply IH in X; congruence end.
Qed.
Theorem gpv_iff lookups env data name add rec (multi : bool) r : f_gpvlookup matching lookups env data name add rec multi = r <-> gpv_gives matching lookups env data name add rec multi r.
Proof.
  unfold f_gpvlookup. pose proof (proj2 (dotted_iff name _) eq_refl) as D.
  set (rcd := fun v => match rec with Some r => {| m_vars := dset (m_vars env) r v; m_gvars := dset (m_gvars env) r v |} | None => env end).
  assert (R : forall v e, recorded rec v env e <-> rcd v = e).
  { intros v e. unfold rcd. split; [intros H; destruct H; subst; reflexivity|]. intros <-. destruct rec; [now apply rc_yes|now apply rc_no]. }
  apply gives; clear r.
  - destruct (walk_get (dotted name) lookups) as [t|e] eqn:W; cbn [rbind]; apply walks_iff in W; [|eapply gv_no_way; eassumption].
    destruct t as [|b|z|s|l|d|o]; try solve [eapply gv_no_table; [eassumption|eassumption|other]].
    destruct (if multi then gpv_all matching data d else gpv_first matching data d) as [ks|e] eqn:K; cbn [rbind]; apply keys_iff in K; [|eapply gv_bad; eassumption].
    cbv zeta. destruct ks as [|k0 ks0] eqn:Eks; [eapply gv_none; try eassumption; now apply R|]. rewrite <- Eks in *.
    eapply gv_found; try eassumption; [subst; discriminate|now apply keys_as|now apply R|now apply answers_iff].
  - assert (G : forall a, gpv_gives matching lookups env data name add rec multi a -> a = match walk_get (dotted name) lookups with Raise e => Raise e | Ok (VDict d) =>
      match (if multi then gpv_all matching data d else gpv_first matching data d) with Raise e => Raise e | Ok [] => Ok (rcd (VList []), (VStr data, FNone)) | Ok ks => Ok (rcd (VList (map key_val ks)), answer add (VStr data) (VList (map key_val ks))) end | Ok _ => Ok (env, (VStr data, FNone)) end).
    { intros a H; inversion H; subst; match goal with K : dotted_path _ _ |- _ => apply dotted_iff in K; subst end; match goal with K : walks _ _ _ |- _ => apply walks_iff in K; rewrite K end; try reflexivity.
      - destruct v; try reflexivity. absurd.
      - match goal with K : keys_found _ _ _ _ _ |- _ => apply keys_iff in K; now rewrite K end.
      - match goal with K : keys_found _ _ _ _ _ |- _ => apply keys_iff in K; rewrite K end. match goal with K : recorded _ _ _ _ |- _ => apply R in K; now rewrite K end.
      - match goal with K : keys_found _ _ _ _ _ |- _ => apply keys_iff in K; rewrite K end. match goal with K : recorded _ _ _ _ |- _ => apply R in K; rewrite <- K end.
        match goal with K : Forall2 key_as _ _ |- _ => apply keys_as in K; subst end. match goal with K : answers _ _ _ _ |- _ => apply answers_iff in K end. destruct ks; [congruence|]. congruence. }
    intros a b Ha Hb. now rewrite (G a Ha), (G b Hb).
Qed.
End G.

(** ** count, set, let *)
Lemma number_bad v : (forall z, ~ number_of v z) <-> (forall z, v <> VInt z) /\ (forall b, v <> VBool b).
Proof.
  split; [intros H; split; intros x ->; [apply (H x); constructor|destruct x; eapply H; constructor]|].
  intros [H K] z N; destruct N; [exact (H z eq_refl)|exact (K _ eq_refl)|exact (K _ eq_refl)].
Qed.
Lemma counted_iff d k r : match k with Some v => incr d v | None => Ok d end = r <-> counted d k r.
Proof.
  destruct k as [k|]; [|split; [intros <-; constructor|intros H; now inversion H]]. apply gives; clear r.
  - unfold incr. destruct (dget d k) as [v|] eqn:E; [|now apply cn_first]. destruct v as [|b|z|s|l|x|o]; try solve [eapply cn_bad; [exact E|apply number_bad; split; other]].
    + eapply cn_next; [exact E|destruct b; constructor].
    + eapply cn_next; [exact E|constructor].
  - assert (N : forall v x y, number_of v x -> number_of v y -> x = y) by (intros v x y H K; destruct H; now inversion K).
    intros a b Ha Hb; inversion Ha; subst; inversion Hb; subst; try congruence;
      match goal with X : dget d k = Some ?u, Y : dget d k = Some ?w |- _ => assert (u = w) by congruence; subst end; try nope; try reflexivity.
    match goal with X : number_of ?v ?x, Y : number_of ?v ?y |- _ => now rewrite (N _ _ _ X Y) end.
Qed.
Theorem count_iff env data var glob r : f_count env data var glob = r <-> count_gives env data var glob r.
Proof.
  unfold f_count. destruct (match var with Some v => incr (m_vars env) v | None => Ok (m_vars env) end) as [vs|e] eqn:V; pose proof (proj1 (counted_iff _ _ _) V) as CV; cbn [rbind].
  - destruct (match glob with Some v => incr (m_gvars env) v | None => Ok (m_gvars env) end) as [gs|e] eqn:G; pose proof (proj1 (counted_iff _ _ _) G) as CG; cbn [rbind].
    + split; [intros <-; now apply ct_ok|]. intros H; destruct H as [vs' gs' H K|e H|vs' e H K]; apply counted_iff in H; try (apply counted_iff in K); congruence.
    + split; [intros <-; now apply (ct_bad_glob _ _ _ _ vs)|]. intros H; destruct H as [vs' gs' H K|e' H|vs' e' H K]; apply counted_iff in H; try (apply counted_iff in K); congruence.
  - split; [intros <-; now apply ct_bad_var|]. intros H; destruct H as [vs' gs' H K|e' H|vs' e' H K]; apply counted_iff in H; congruence.
Qed.
Lemma rstrip_white s r : stripped false true white s r <-> rstrip s = r.
Proof. rewrite (rstripped is_space white white_iff s r). unfold rstrip. split; intros E; symmetry; exact E. Qed.
Theorem set_iff env data value line r : f_set env data value line = r <-> set_gives env value line data r.
Proof.
  unfold f_set. destruct data as [|b|z|s|l|d|o]; try solve [split; [intros <-; apply st_bad; other|intros H; now inversion H]].
  destruct (str_eqb_spec (rstrip s) line) as [E|N].
  2: { split; [intros <-; apply st_other; intros K; apply rstrip_white in K; congruence|]. intros H; inversion H; subst; try absurd; try reflexivity; exfalso; apply N; now apply rstrip_white. }
  apply rstrip_white in E. apply gives; clear r.
  - destruct value as [|b|z|n|l|d|o]; try solve [apply st_value; [exact E|other]]. destruct (dget (m_vars env) (KS n)) as [x|] eqn:V; [now apply (st_var _ _ _ _ n)|].
    destruct (dget (m_gvars env) (KS n)) as [x|] eqn:G; [now apply (st_global _ _ _ _ n)|]. apply st_value; [exact E|]. intros m Em. assert (m = n) by congruence. subst. auto.
  - intros a b Ha Hb. inversion Ha; subst; inversion Hb; subst; try absurd; try contradiction; try reflexivity;
      repeat match goal with
      | H : VStr ?x = VStr ?y |- _ => assert (x = y) by congruence; clear H; subst
      | H : forall n, VStr ?x = VStr n -> _ |- _ => destruct (H x eq_refl); clear H end; congruence.
Qed.
Theorem let_iff data n o r : f_let data n o = r <-> let_gives data n o r.
Proof.
  unfold f_let. destruct o as [v|]; [|split; [intros <-; constructor|intros H; now inversion H]].
  destruct (key_of n) as [k|e] eqn:E; cbn [rbind].
  - apply key_of_ok in E. split; [intros <-; now apply le_field|]. intros H; inversion H; subst; [|exfalso; match goal with K : forall k, ~ _ |- _ => exact (K k E) end].
    match goal with K : as_key n ?k' |- _ => apply key_of_ok in K, E; assert (k' = k) by congruence; now subst end.
  - assert (e = TypeError) by (destruct n; cbn [key_of] in E; congruence). subst. assert (E' := proj2 (key_of_bad _) E); clear E; rename E' into E. split; [intros <-; now apply le_bad|]. intros H; inversion H; subst; [exfalso; eapply E; eassumption|reflexivity].
Qed.

(** ** digits *)
Lemma digits_iff s : isdigit s = true <-> digits_only s. Proof. apply isdigit_all. Qed.
Theorem isdigit_iff data r : f_isdigit data = r <-> isdigit_gives true data r.
Proof.
  unfold f_isdigit. destruct data as [|b|z|s|l|d|o]; try solve [split; [intros <-; apply dg_bad; other|intros H; now inversion H]]. cbn [py_strip rbind]. split.
  - intros <-. apply (dg_text _ _ (strip s)); [now apply strip_white|apply digits_iff].
  - intros H; inversion H as [s' t b S B|]; subst; [|absurd]. apply strip_white in S. subst. rewrite <- digits_iff in B. unfold checked. apply (Logic.f_equal Ok). apply (Logic.f_equal (pair (VStr s))). apply (Logic.f_equal FBool). destruct b, (isdigit (strip s)); intuition congruence.
Qed.
Theorem notdigit_iff data r : f_notdigit data = r <-> isdigit_gives false data r.
Proof.
  unfold f_notdigit. destruct data as [|b|z|s|l|d|o]; try solve [split; [intros <-; apply dg_bad; other|intros H; now inversion H]]. cbn [py_strip rbind]. split.
  - intros <-. destruct (isdigit (strip s)) eqn:E; cbn [negb]; (apply (dg_text _ _ (strip s)); [now apply strip_white|rewrite <- digits_iff, E; split; congruence]).
  - intros H; inversion H as [s' t b S B|]; subst; [|absurd]. apply strip_white in S. subst. rewrite <- digits_iff in B. destruct (isdigit (strip s)), b; cbn [negb]; try reflexivity; exfalso; intuition congruence.
Qed.
Lemma digits_dec t : digits_only t \/ ~ digits_only t.
Proof. rewrite <- digits_iff. destruct (isdigit t); [now left|right; discriminate]. Qed.
Section Cmp.
Variables (cmp : N -> N -> Prop) (cmpb : Z -> Z -> bool).
Hypothesis same : forall x y, cmpb (Z.of_N x) (Z.of_N y) = true <-> cmp x y.
Definition comparing (data value : val) : outcome :=
  do s <- py_strip data;
  if isdigit s then do v <- py_strip value;
    if isdigit v then do a <- int_of s; do b <- int_of v; if cmpb a b then Ok (data, FBool true) else Ok (data, FBool false)
    else Ok (data, FBool false)
  else Ok (data, FBool false).
Lemma compare_iff data value r : comparing data value = r <-> compare_gives cmp data value r.
Proof.
  unfold comparing. destruct data as [|b|z|s|l|d|o]; try solve [split; [intros <-; apply cp_bad; other|intros H; now inversion H]]. cbn [py_strip rbind].
  apply gives; clear r.
  - assert (S : stripped true true white s (strip s)) by now apply strip_white.
    destruct (isdigit (strip s)) eqn:E; [apply digits_iff in E|].
    2: { apply (cp_not _ _ (strip s)); [exact S|]. rewrite <- digits_iff. congruence. }
    destruct value as [|b|z|t|l|d|o]; try solve [apply (cp_bad2 _ _ (strip s)); [exact S|exact E|other]]. cbn [py_strip rbind].
    assert (S2 : stripped true true white t (strip t)) by now apply strip_white.
    destruct (isdigit (strip t)) eqn:E2; [apply digits_iff in E2|].
    2: { apply (cp_not2 _ _ (strip s) _ (strip t)); try assumption. rewrite <- digits_iff. congruence. }
    pose proof (py_int_isdigit _ (proj2 (digits_iff _) E)) as P1. pose proof (py_int_isdigit _ (proj2 (digits_iff _) E2)) as P2. unfold int_of.
    destruct (dec_decidable (strip s)) as [D1|D1], (dec_decidable (strip t)) as [D2|D2].
    + destruct E as [NE1 E], E2 as [NE2 E2]. rewrite !py_int_dec by assumption. cbn [rbind].
      assert (K : forall b, (b = true <-> cmp (digits_val (strip s) 0) (digits_val (strip t) 0)) -> compare_gives cmp (VStr s) (VStr t) (checked (VStr s) b)) by (intros b B; eapply cp_numbers; try eassumption; split; assumption).
      destruct (cmpb _ _) eqn:B; apply K; rewrite <- same, B; split; congruence.
    + destruct (py_int (strip s)) eqn:X; cbn [rbind]; rewrite ?(proj2 P2 D2); cbn [rbind]; eapply cp_odd; try eassumption; (unfold decimal; tauto).
    + rewrite (proj2 P1 D1). cbn [rbind]. eapply cp_odd; try eassumption. unfold decimal; tauto.
    + rewrite (proj2 P1 D1). cbn [rbind]. eapply cp_odd; try eassumption. unfold decimal; tauto.
  - intros a b Ha Hb. assert (U : forall x y z, stripped true true white x y -> stripped true true white x z -> y = z) by (intros x y z H K; apply strip_white in H, K; congruence).
    inversion Ha; subst; inversion Hb; subst; try absurd; try reflexivity;
      repeat match goal with H : stripped true true white ?x ?y, K : stripped true true white ?x ?z |- _ => assert (y = z) by (exact (U _ _ _ H K)); clear K; subst end; try contradiction; try tauto.
    match goal with H : ?b1 = true <-> _, K : ?b2 = true <-> _ |- _ => now rewrite (same_bool _ _ _ H K) end.
Qed.
End Cmp.
Theorem greaterthan_iff data v r : f_greaterthan data v = r <-> compare_gives (fun x y => y < x)%N data v r.
Proof.
  rewrite <- (compare_iff (fun x y => (y < x)%N) (fun x y => Z.ltb y x)); [reflexivity|]. intros x y. rewrite Z.ltb_lt. lia.
Qed.
Theorem lessthan_iff data v r : f_lessthan data v = r <-> compare_gives (fun x y => x < y)%N data v r.
Proof.
  rewrite <- (compare_iff (fun x y => (x < y)%N) (fun x y => Z.ltb x y)); [reflexivity|]. intros x y. rewrite Z.ltb_lt. lia.
Qed.
Theorem to_int_iff data r : f_to_int data = r <-> to_int_gives data r.
Proof.
  apply gives; clear r.
  - unfold f_to_int. destruct data as [|b|z|s|l|d|o]; try solve [apply to_bad; [other|apply number_bad; split; other]].
    + apply to_number. destruct b; constructor.
    + apply to_number. constructor.
    + destruct (py_int s) eqn:E; [now apply to_text|now apply to_no_number].
  - intros a b Ha Hb. inversion Ha; subst; inversion Hb; subst; try absurd; try congruence; try reflexivity;
      repeat match goal with H : number_of _ _ |- _ => inversion H; clear H; subst end; try reflexivity; exfalso; match goal with H : forall z, ~ _ |- _ => eapply H; constructor end.
Qed.

(** ** regular expressions *)
Theorem yes_iff b data r : yes b data = r <-> search_gives true b data r.
Proof. unfold yes. destruct b as [[]|e]; cbn [rbind]; (split; [intros <-; (now apply (sr_ok true _ _ true)) || (now apply (sr_ok true _ _ false)) || now apply sr_bad|intros H; destruct H as [b' E|e' E]; [destruct b'|]; try reflexivity; congruence]). Qed.
Theorem no_iff b data r : no b data = r <-> search_gives false b data r.
Proof. unfold no. destruct b as [[]|e]; cbn [rbind negb]; (split; [intros <-; (now apply (sr_ok false _ _ true)) || (now apply (sr_ok false _ _ false)) || now apply sr_bad|intros H; destruct H as [b' E|e' E]; [destruct b'|]; try reflexivity; congruence]). Qed.
Theorem resub_iff sub escape vars data old new n r : f_resub sub escape vars data old new n = r <-> resub_gives sub escape vars data old new n r.
Proof.
  unfold f_resub. apply gives; clear r.
  - destruct (dget vars (KS old)) as [v|] eqn:E.
    + destruct v as [|b|z|s|l|d|o]; cbn [as_str rbind]; try solve [eapply rs_bad; [exact E|other]].
      destruct (sub (escape s) new data n) eqn:S; cbn [rbind]; [apply (rs_ok _ _ _ _ _ _ _ (escape s))|apply (rs_fails _ _ _ _ _ _ _ (escape s))]; eauto.
    + destruct (sub old new data n) eqn:S; cbn [rbind]; [apply (rs_ok _ _ _ _ _ _ _ old)|apply (rs_fails _ _ _ _ _ _ _ old)]; eauto.
  - assert (U : forall p q, (dget vars (KS old) = None /\ p = old) \/ (exists o, dget vars (KS old) = Some (VStr o) /\ p = escape o) -> (dget vars (KS old) = None /\ q = old) \/ (exists o, dget vars (KS old) = Some (VStr o) /\ q = escape o) -> p = q).
    { intros p q [[H1 H2]|(o & H1 & H2)] [[K1 K2]|(o' & K1 & K2)]; congruence. }
    assert (B : forall p v, (dget vars (KS old) = None /\ p = old) \/ (exists o, dget vars (KS old) = Some (VStr o) /\ p = escape o) -> dget vars (KS old) = Some v -> not_text v -> False).
    { intros p v [[H1 H2]|(o & H1 & H2)] K N; [congruence|]. assert (v = VStr o) by congruence. subst. exact (N o eq_refl). }
    intros a b Ha Hb. inversion Ha; subst; inversion Hb; subst; try reflexivity; try solve [exfalso; eauto];
      match goal with X : sub ?p _ _ _ = _, Y : sub ?q _ _ _ = _ |- _ => assert (p = q) by (apply U; assumption); subst; congruence end.
Qed.
