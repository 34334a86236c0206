(** * MadeFacts2: proofs for C123, the default values. *)
From Coq Require Import Lia.
From Verif Require Import PyBase DictFacts StrFacts Regex FormRegex Results Template Attributes MatchVar Compile SpecGroups SpecVariable VariableFacts VariableFacts2 VariableFacts3 SpecHeaders HeadersFacts3 SpecMade MadeFacts.
Local Open Scope string_scope.
Local Open Scope list_scope.

Lemma gdefault_eq default o : is_gdefault default o <-> o = default_text default.
Proof.
  unfold is_gdefault, text_default, default_text. split.
  - intros [(g & [-> Hg] & ->)|[H ->]].
    + apply str_eqb_neq in Hg. change (t_ "_Not_Given_") with $"_Not_Given_" in Hg. now rewrite Hg.
    + destruct default as [[]|]; try reflexivity. destruct (str_eqb s $"_Not_Given_") eqn:E; [reflexivity|]. apply str_eqb_neq in E. destruct (H s). now split.
  - intros ->. destruct default as [[]|]; try (right; split; [intros g [K _]; discriminate|reflexivity]). destruct (str_eqb s $"_Not_Given_") eqn:E.
    + right. split; [|reflexivity]. apply str_eqb_eq in E. subst s. intros g [K Hg]. assert (E : g = $"_Not_Given_") by congruence. now apply Hg.
    + left. exists s. apply str_eqb_neq in E. now repeat split.
Qed.

Section D.
Variable vars : dict.
Definition owner (vo : varobj * str) : str := vo_orig (fst vo).
Definition upd (g : option str) (d : dict) (vo : (varobj * str) * option val) : dict := with_default (owner (fst vo)) (group_default g (owner (fst vo)) d) (snd vo).
Definition grown (g : option str) (vs : list (varobj * str)) (d d' : dict) : Prop :=
  exists os, Forall2 (fun v o => own_default vars (fst v) (snd v) o) vs os /\ d' = fold_left (upd g) (combine vs os) d.
Lemma grown_nil g d : grown g [] d d. Proof. exists []. now split. Qed.
Lemma combine_app {A B} (a a' : list A) (b b' : list B) : length a = length b -> combine (a ++ a') (b ++ b') = combine a b ++ combine a' b'.
Proof. revert b. induction a as [|x a IH]; intros [|y b] H; try discriminate; [reflexivity|]. cbn. f_equal. apply IH. now injection H. Qed.
Lemma f2len {A B} (R : A -> B -> Prop) l m : Forall2 R l m -> length l = length m. Proof. induction 1; cbn; congruence. Qed.
Lemma grown_app g v1 v2 d d1 d2 : grown g v1 d d1 -> grown g v2 d1 d2 -> grown g (v1 ++ v2) d d2.
Proof.
  intros (o1 & H1 & ->) (o2 & H2 & ->). exists (o1 ++ o2). split; [now apply Forall2_app|]. rewrite combine_app by now apply f2len in H1. now rewrite fold_left_app.
Qed.
Lemma variable_grown g t line d v : is_variable vars g t line d v -> grown g [(v, line)] d (v_defaults (vo_st v)).
Proof.
  intros (a & attrs & es & fs & rs & o & Ha & He & Hd & ->). exists [o]. split; [|reflexivity]. constructor; [|constructor]. cbn [fst snd]. exists es, fs, rs. now split.
Qed.
Lemma columns_grown g ws d l d' : columns_made vars g ws d l d' -> grown g (map (fun nv => (snd nv, [])) l) d d'.
Proof.
  induction 1 as [d|w ws d v l d' Hv _ IH]; [apply grown_nil|]. cbn [map snd]. change ((v, []) :: map (fun nv : str * varobj => (snd nv, [])) l) with ([(v, [] : str)] ++ map (fun nv : str * varobj => (snd nv, [])) l). eapply grown_app; [|exact IH]. eapply variable_grown. exact Hv.
Qed.
Lemma regex_grown g v line r d r' cols d' : variable_regex vars g v line r d = Ok (r', cols, d') -> grown g (map (fun nv => (snd nv, [])) cols) d d'.
Proof.
  intros H. destruct (list_eq_dec ascii_dec (vo_name v) (t_ "_headers_")) as [E|E].
  - unfold variable_regex in H. rewrite E in H. change (str_eqb (t_ "_headers_") $"_headers_") with true in H. cbn iota in H. destruct (headers_regex v line) as [[r0 hs]|]; [|discriminate]. cbn [rbind] in H. destruct (sub_variables vars g hs d) as [[l d0]|] eqn:Es; [|discriminate]. cbn [rbind] in H.
    injection H as <- <- <-. apply made_iff in Es. eapply columns_grown. exact Es.
  - apply source_iff in H; [|exact E]. destruct H as (-> & -> & _). apply grown_nil.
Qed.
Definition everyone1 (line : str) (m : made) : list (varobj * str) := (fst m, line) :: map (fun nv => (snd nv, [])) (snd m).
Lemma line_grown g line ts d r ms d' r' : line_made vars g line ts d r ms d' r' -> grown g (everyone (map (pair line) ms)) d d'.
Proof.
  induction 1 as [d r|t ts d r v l d' r' Hv _ _ IH|t ts d r v r1 cols d1 l d' r' Hv _ Hr _ IH]; [apply grown_nil| |]; unfold everyone in *; cbn [map flat_map fst snd] in *.
  - match goal with |- grown _ ?z _ _ => change z with ([(v, line)] ++ everyone (map (pair line) l)) end. eapply grown_app; [eapply variable_grown; exact Hv|exact IH].
  - match goal with |- grown _ ?z _ _ => change z with ([(v, line)] ++ (map (fun nv : str * varobj => (snd nv, [] : str)) cols ++ everyone (map (pair line) l))) end. eapply grown_app; [eapply variable_grown; exact Hv|]. eapply grown_app; [eapply regex_grown; exact Hr|exact IH].
Qed.
Lemma everyone_app a b : everyone (a ++ b) = everyone a ++ everyone b.
Proof. unfold everyone. induction a as [|x a IH]; [reflexivity|]. cbn [app flat_map]. now rewrite IH, <- app_assoc. Qed.
Lemma lines_grown g ls d ms xs d' : lines_give vars g ls d ms xs d' -> grown g (everyone ms) d d'.
Proof.
  induction 1 as [d|line ls d ms ox d1 ms' xs d' (r & Hl & _) _ IH]; [apply grown_nil|]. rewrite everyone_app. eapply grown_app; [eapply line_grown; exact Hl|exact IH].
Qed.

(** ** looking up a default *)
Definition special (n : str) : bool := in_strs n (map t_ without_default).
Lemma special_iff n : special n = true <-> among n without_default. Proof. apply SessionFacts.in_strs_In. Qed.
Lemma upd_get g d v o n : dget (upd g d (v, o)) (KS n) =
  if str_eqb (owner v) n then match o with Some x => Some x | None => match dget d (KS n) with Some x => Some x | None => match g with Some t => if special n then None else Some (VStr t) | None => None end end end
  else dget d (KS n).
Proof.
  unfold upd. cbn [fst snd]. set (m := owner v). assert (Eg : dget (group_default g m d) (KS n) = if str_eqb m n then match dget d (KS n) with Some x => Some x | None => match g with Some t => if special n then None else Some (VStr t) | None => None end end else dget d (KS n)).
  { unfold group_default. destruct (str_eqb m n) eqn:E.
    - apply str_eqb_eq in E. subst n. destruct g as [t|]; [|now destruct (dget d (KS m))]. fold (special m). destruct (special m); cbn [orb]; [now destruct (dget d (KS m))|]. destruct (dget d (KS m)) eqn:Ed; [exact Ed|]. apply dget_dset_same.
    - apply str_eqb_neq in E. destruct g as [t|]; [|reflexivity]. destruct (_ || _)%bool; [reflexivity|]. apply dget_dset_other. congruence. }
  unfold with_default. destruct o as [x|]; [|rewrite Eg; now destruct (str_eqb m n)]. destruct (str_eqb m n) eqn:E.
  - apply str_eqb_eq in E. subst n. apply dget_dset_same.
  - apply str_eqb_neq in E. rewrite dget_dset_other by congruence. exact Eg.
Qed.
Lemma upd_other g d vo k : (forall n, k <> KS n) -> dget (upd g d vo) k = dget d k.
Proof.
  intros H. unfold upd, with_default, group_default. destruct (snd vo), g; repeat (destruct (_ || _)%bool); rewrite ?dget_dset_other; try reflexivity; intros K; symmetry in K; now apply H in K.
Qed.
Lemma fold_other g l : forall d k, (forall n, k <> KS n) -> dget (fold_left (upd g) l d) k = dget d k.
Proof. induction l as [|x l IH]; intros d k H; [reflexivity|]. cbn [fold_left]. rewrite IH by exact H. now apply upd_other. Qed.
Lemma fold_get g vs : forall os d n, length vs = length os -> dget (fold_left (upd g) (combine vs os) d) (KS n) =
  match last_own vs os n with
  | Some x => Some x
  | None => match dget d (KS n) with Some x => Some x | None => match g with Some t => if in_strs n (map owner vs) && negb (special n) then Some (VStr t) else None | None => None end end
  end%bool.
Proof.
  induction vs as [|v vs IH]; intros [|o os] d n H; try discriminate.
  - cbn [combine fold_left last_own map]. now destruct (dget d (KS n)), g.
  - cbn [combine fold_left last_own map]. rewrite IH by now injection H. destruct (last_own vs os n) as [x|] eqn:El; [reflexivity|]. rewrite upd_get. change (vo_orig (fst v)) with (owner v).
    destruct (str_eqb (owner v) n) eqn:E.
    + apply str_eqb_eq in E. subst n. destruct o as [x|]; [reflexivity|]. destruct (dget d (KS (owner v))); [reflexivity|]. assert (K : in_strs (owner v) (owner v :: map owner vs) = true) by (apply SessionFacts.in_strs_In; now left). rewrite K. cbn [andb].
      destruct g as [t|]; [|reflexivity]. destruct (special (owner v)); cbn [negb andb]; [|reflexivity]. now rewrite Bool.andb_false_r.
    + assert (K : in_strs n (owner v :: map owner vs) = in_strs n (map owner vs)).
      { apply Bool.eq_iff_eq_true. rewrite !SessionFacts.in_strs_In. apply str_eqb_neq in E. cbn [In]. intuition. }
      now rewrite K.
Qed.
Lemma grown_keeps g vs d d' k : grown g vs d d' -> dget d k <> None -> dget d' k <> None.
Proof.
  intros (os & H & ->) Hk. destruct k as [n|z|]; [|rewrite fold_other; [exact Hk|discriminate]..]. rewrite fold_get by now apply f2len in H. destruct (last_own vs os n); [discriminate|]. now destruct (dget d (KS n)).
Qed.

(** ** several parts *)
Definition dict_wf (default : option val) : Prop := forall e, default = Some (VDict e) -> dwf e.
Lemma add_dict_keeps default d k : dget d k <> None -> dget (add_dict default d) k <> None.
Proof.
  unfold add_dict. destruct default as [[]|]; auto. rewrite dget_dupdate_last. now destruct (dget_last _ _).
Qed.
Lemma parts_keep default ts d ms xss d' k : parts_give vars default ts d ms xss d' -> dget d k <> None -> dget d' k <> None.
Proof.
  induction 1 as [d|o text lss ts d ms xs d1 ms' xss d' Ho Hu Hl _ IH]; [auto|]. intros Hk. apply IH, add_dict_keeps. eapply grown_keeps; [eapply lines_grown; exact Hl|exact Hk].
Qed.
Lemma last_own_app v1 o1 v2 o2 n : length v1 = length o1 -> last_own (v1 ++ v2) (o1 ++ o2) n = match last_own v2 o2 n with Some x => Some x | None => last_own v1 o1 n end.
Proof.
  revert o1. induction v1 as [|v v1 IH]; intros [|o o1] H; try discriminate; cbn [app last_own]; [now destruct (last_own v2 o2 n)|]. rewrite IH by now injection H. now destruct (last_own v2 o2 n).
Qed.
(** a dictionary *)
Lemma parts_dict e ts d ms xss d' : dwf e -> parts_give vars (Some (VDict e)) ts d ms xss d' -> exists os, Forall2 (fun v o => own_default vars (fst v) (snd v) o) (everyone ms) os /\
  (forall k v, dget e k = Some v -> ts <> [] -> dget d' k = Some v) /\
  (forall n, dget e (KS n) = None -> dget d' (KS n) = match last_own (everyone ms) os n with Some x => Some x | None => dget d (KS n) end) /\
  (forall k, dget e k = None -> (forall n, k <> KS n) -> dget d' k = dget d k).
Proof.
  intros He H. remember (Some (VDict e)) as default eqn:Ed. induction H as [d|o text lss ts d ms xs d1 ms' xss d' Ho Hu Hl Hp IH].
  - exists []. split; [constructor|]. split; [congruence|]. split; [reflexivity|reflexivity].
  - subst default. destruct IH as (os' & H1 & H2 & H3 & H4). apply gdefault_eq in Ho. cbn [default_text] in Ho. subst o. cbn [add_dict] in *. apply lines_grown in Hl as (os & G1 & G2). exists (os ++ os'). split; [rewrite everyone_app; now apply Forall2_app|]. split; [|split].
    + intros k v Hk _. destruct ts as [|t ts].
      * inversion Hp; subst. rewrite dget_dupdate, Hk by exact He. reflexivity.
      * apply (H2 k v Hk). discriminate.
    + intros n Hn. rewrite (H3 n Hn), everyone_app, last_own_app by now apply f2len in G1. destruct (last_own (everyone ms') os' n); [reflexivity|]. rewrite dget_dupdate, Hn by exact He. subst d1. rewrite fold_get by now apply f2len in G1. destruct (last_own (everyone ms) os n); [reflexivity|]. now destruct (dget d (KS n)).
    + intros k Hk Hn. rewrite (H4 k Hk Hn). rewrite dget_dupdate, Hk by exact He. subst d1. now apply fold_other.
Qed.
(** no dictionary *)
Lemma parts_text default ts d ms xss d' : (forall e, default <> Some (VDict e)) -> parts_give vars default ts d ms xss d' -> grown (default_text default) (everyone ms) d d'.
Proof.
  intros Hd. induction 1 as [d|o text lss ts d ms xs d1 ms' xss d' Ho Hu Hl Hp IH]; [apply grown_nil|]. apply gdefault_eq in Ho. subst o. rewrite everyone_app. eapply grown_app; [eapply lines_grown; exact Hl|].
  assert (E : add_dict default d1 = d1) by (unfold add_dict; destruct default as [[]|]; try reflexivity; now destruct (Hd d0)). now rewrite E in IH.
Qed.
Theorem parts_default default ts ms xss d' : dict_wf default -> ts <> [] -> parts_give vars default ts [] ms xss d' -> exists os, Forall2 (fun v o => own_default vars (fst v) (snd v) o) (everyone ms) os /\
  forall k v, dget d' k = Some v <-> default_of default (everyone ms) os k v.
Proof.
  intros Hw Ht H. assert (C : (exists e, default = Some (VDict e)) \/ forall e, default <> Some (VDict e)) by (destruct default as [[]|]; first [left; eexists; reflexivity|right; discriminate]).
  destruct C as [(e & Ee)|C].
  - subst default. pose proof (Hw e eq_refl) as He. destruct (parts_dict e ts [] ms xss d' He H) as (os & H1 & H2 & H3 & H4). exists os. split; [exact H1|]. intros k v. destruct (dget e k) as [w|] eqn:Ek.
    + rewrite (H2 k w Ek Ht). split.
      * intros E. injection E as <-. now apply (dv_dict _ _ _ e).
      * intros K. inversion K as [e' k' v' E1 E2|n v' E1 E2|n g E1 [E2 _] E3 E4]; subst; [congruence| |discriminate]. specialize (E1 e eq_refl). congruence.
    + destruct k as [n|z|].
      * rewrite (H3 n Ek). cbn [dget]. split.
        -- destruct (last_own (everyone ms) os n) as [x|] eqn:El; [|discriminate]. intros E. injection E as <-. apply dv_own; [|exact El]. intros e' E. congruence.
        -- intros K. inversion K as [e' k' v' E1 E2|n' v' E1 E2|n' g E1 [E2 _] E3 E4]; subst; [congruence| |discriminate]. now rewrite E2.
      * rewrite (H4 (KI z) Ek) by discriminate. split; [discriminate|]. intros K. inversion K; subst. congruence.
      * rewrite (H4 KNone Ek) by discriminate. split; [discriminate|]. intros K. inversion K; subst. congruence.
  - destruct (parts_text default ts [] ms xss d' C H) as (os & H1 & ->). exists os. split; [exact H1|]. intros k v. destruct k as [n|z|].
    + rewrite fold_get by now apply f2len in H1. cbn [dget]. split.
      * destruct (last_own (everyone ms) os n) as [x|] eqn:El.
        -- intros E. injection E as <-. apply dv_own; [|exact El]. intros e E. now destruct (C e).
        -- destruct (default_text default) as [t|] eqn:Et; [|discriminate]. destruct (_ && _)%bool eqn:Eb; [|discriminate]. intros E. injection E as <-. apply Bool.andb_true_iff in Eb as [Eb1 Eb2]. apply dv_group; [exact El| |now apply SessionFacts.in_strs_In|].
           ++ symmetry in Et. apply gdefault_eq in Et. destruct Et as [(g & Hg & E)|[_ E]]; [|discriminate]. assert (t = g) as -> by congruence. exact Hg.
           ++ intros K. apply special_iff in K. rewrite K in Eb2. discriminate.
      * intros K. inversion K as [e' k' v' E1 E2|n' v' E1 E2|n' g E1 E2 E3 E4]; subst; [now destruct (C e')|now rewrite E2|]. rewrite E1. assert (Et : default_text default = Some g) by (symmetry; apply gdefault_eq; left; now exists g). rewrite Et.
        assert (X1 : in_strs n (map owner (everyone ms)) = true) by now apply SessionFacts.in_strs_In. assert (X2 : special n = false) by (destruct (special n) eqn:X; [apply special_iff in X; contradiction|reflexivity]). now rewrite X1, X2.
    + rewrite fold_other by discriminate. split; [discriminate|]. intros K. inversion K; subst. now destruct (C e).
    + rewrite fold_other by discriminate. split; [discriminate|]. intros K. inversion K; subst. now destruct (C e).
Qed.
End D.
