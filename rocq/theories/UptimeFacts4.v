(** * UptimeFacts4: a time written out is read *)
From Verif Require Import PyBase Regex StrFacts DictFacts CharFacts Parser MatchFuncs Uptime SpecUptime UptimeFacts UptimeFacts2 UptimeFacts3.
Local Open Scope string_scope.
Local Open Scope list_scope.

(** no letter is followed by a digit or dot *)
Fixpoint apart (s : str) : bool :=
  match s with
  | x :: t => (match t with c :: _ => negb (alpha x && dnum c) | [] => true end && apart t)%bool
  | [] => true
  end.
Lemma apart_app a b : apart (a ++ b) = true -> apart b = true.
Proof. induction a as [|x a IH]; cbn [app apart]; intros H; [exact H|]. apply Bool.andb_true_iff in H as [_ H]. now apply IH. Qed.
Lemma tight_apart s : tight s -> apart s = false.
Proof.
  intros (a & w & c & b & -> & H & Hc). apply dnum_iff in Hc.
  assert (W : all_of alpha w /\ w <> []) by (destruct H as [H|H]; apply abbreviations_alpha in H as (H1 & H2 & _); now split).
  destruct W as [W1 W2]. destruct (exists_last W2) as (v & x & ->). unfold all_of in W1. rewrite Forall_forall in W1. specialize (W1 x ltac:(apply in_or_app; right; now left)).
  destruct (apart (a ++ (v ++ [x]) ++ c :: b)) eqn:E; [|reflexivity]. exfalso. apply apart_app in E. rewrite <- app_assoc in E. apply apart_app in E. cbn [app apart] in E. rewrite W1, Hc in E. discriminate.
Qed.
Lemma apart_no_letters a b : none_of alpha a -> apart (a ++ b) = apart b.
Proof.
  induction 1 as [|x a Hx _ IH]; [reflexivity|]. cbn [app apart]. rewrite IH. destruct (a ++ b); [reflexivity|]. now rewrite Hx.
Qed.
Lemma apart_letters a b : all_of alpha a -> stops dnum b -> apart (a ++ b) = apart b.
Proof.
  intros Ha Hb. induction Ha as [|x a Hx Ha IH]; [reflexivity|]. cbn [app apart]. rewrite IH.
  assert (K : stops dnum (a ++ b)). { destruct a as [|y a]; [exact Hb|]. inversion Ha; subst. cbn. now apply alpha_facts. }
  destruct (a ++ b) as [|y t]; [reflexivity|]. cbn in K. rewrite K, Bool.andb_false_r. reflexivity.
Qed.
Lemma long_alpha u : all_of alpha (long_name u).
Proof. unfold all_of. rewrite Forall_forall. assert (K : forallb alpha (long_name u) = true) by (destruct u; vm_compute; reflexivity). now rewrite forallb_forall in K. Qed.
Lemma long_names u : names_unit u (long_name u).
Proof.
  left. assert (H : exists x, In x (words u) /\ long_name u = $x /\ lower $x = $x).
  { destruct u; [exists "years"|exists "months"|exists "weeks"|exists "days"|exists "hours"|exists "minutes"|exists "seconds"]; (split; [cbn; tauto|]); split; vm_compute; reflexivity. }
  destruct H as (x & Hx & E & L). exists x. split; [exact Hx|]. now rewrite E.
Qed.
Definition whole (l : list (unit_ * str)) : Prop := Forall (fun x => snd x <> [] /\ integer (snd x)) l.
Lemma integer_count u n : n <> [] -> integer n -> count u n.
Proof. intros H1 H2. split; [exact H1|]. eapply Forall_impl; [|exact H2]. intros c Hc. now left. Qed.
Lemma written_cons u n l : written ((u, n) :: l) = n ++ $" " ++ long_name u ++ match l with [] => [] | _ => $"," ++ $" " ++ written l end.
Proof. unfold written. destruct l as [|y l]; cbn [map join fst snd]; [now rewrite app_nil_r|]. rewrite <- !app_assoc. reflexivity. Qed.
Lemma written_apart l : whole l -> apart (written l) = true.
Proof.
  induction 1 as [|(u & n) l (Hn & Hi) _ IH]; [reflexivity|]. rewrite written_cons. cbn [snd] in *.
  assert (N : none_of alpha n). { eapply Forall_impl; [|exact Hi]. intros c Hc. apply dnum_facts, dnum_iff. now left. }
  rewrite apart_no_letters by exact N. rewrite (apart_no_letters $" ") by (repeat constructor).
  destruct l as [|y l]; [rewrite apart_letters by (apply long_alpha || exact I); reflexivity|].
  rewrite apart_letters by (apply long_alpha || reflexivity). rewrite (apart_no_letters $",") by (repeat constructor). rewrite (apart_no_letters $" ") by (repeat constructor). exact IH.
Qed.
(** in the order of the units, seconds last *)
Fixpoint seconds_last (us : list unit_) : Prop := match us with u :: t => (u = Secs -> t = []) /\ seconds_last t | [] => True end.
Local Notation some c us := (flat_map (fun u => match c u with Some n => [(u, n)] | None => [] end) us).
Lemma written_writes (c : unit_ -> option str) us : seconds_last us -> whole (some c us) -> writes us (written (some c us)) (some c us).
Proof.
  induction us as [|u us IH]; cbn [flat_map seconds_last]; intros Hs Hw; [apply wr_end; constructor|]. destruct Hs as [Hu Hs]. destruct (c u) as [n|].
  - cbn [app] in *. inversion Hw as [|x l (H1 & H2) H3]; subst. rewrite written_cons. cbn [snd] in H1, H2. specialize (IH Hs H3).
    assert (B : blanks $" ") by (repeat constructor).
    remember (some c us) as l eqn:El. destruct l as [|y l].
    + change (writes (u :: us) ([] ++ n ++ $" " ++ long_name u ++ [] ++ [] ++ []) [(u, n)]).
      apply wr_count; [constructor|now apply integer_count|exact B|apply long_names|constructor|now left|apply wr_end; constructor].
    + change (writes (u :: us) ([] ++ n ++ $" " ++ long_name u ++ [] ++ $"," ++ ($" " ++ written (y :: l))) ((u, n) :: y :: l)).
      apply wr_count; [constructor|now apply integer_count|exact B|apply long_names|constructor| |now apply writes_blanks].
      right. split; [|now left]. intros K. rewrite (Hu K) in El. discriminate.
  - cbn [app] in *. now apply wr_absent, IH.
Qed.
Lemma written_time c : whole (given c) -> time (written (given c)) (given c).
Proof.
  intros H. apply written_writes; [|exact H]. cbn. repeat (split; [intros K; discriminate K|]). now split.
Qed.
Lemma written_seconds c : (forall u n, c u = Some n -> n <> [] /\ integer n) -> (exists u n, c u = Some n) ->
  f_uptimeparse (VStr (written (given c))) (VStr $"seconds") = SpecOutcome.becomes (VInt (total (given c))).
Proof.
  intros H (u & n & Hu).
  assert (W : whole (given c)).
  { unfold whole. rewrite Forall_forall. intros (v & m) Hi. unfold given in Hi. apply in_flat_map in Hi as (x & _ & Hi). destruct (c x) as [k|] eqn:E; [|destruct Hi].
    destruct Hi as [Hi|[]]. injection Hi as <- <-. exact (H _ _ E). }
  assert (N : given c <> []).
  { assert (Hi : In (u, n) (given c)). { unfold given. apply in_flat_map. exists u. split; [destruct u; cbn; tauto|]. rewrite Hu. now left. }
    intros K. rewrite K in Hi. destruct Hi. }
  apply (uptime_exact _ _ (given c)); [|now apply written_time|exact N|].
  - intros K. apply tight_apart in K. rewrite written_apart in K by exact W. discriminate.
  - apply tg_seconds; [|reflexivity]. intros v m Hi. unfold whole in W. rewrite Forall_forall in W. exact (proj2 (W _ Hi)).
Qed.
