(** * CallFacts2: proofs for C124, the tables of functions. *)
From Coq Require Import Lia.
From Verif Require Import PyBase DictFacts StrFacts Regex Results Template Attributes FormRegex MatchFuncs GroupFuncs Parser FuncTable SessionFacts SpecVariable SpecCalls CallFacts.
Local Open Scope string_scope.
Local Open Scope list_scope.

Lemma t_inj a b : t_ a = t_ b -> a = b.
Proof. intros H. rewrite <- (string_of_list_ascii_of_string a), <- (string_of_list_ascii_of_string b). unfold t_ in H. now rewrite H. Qed.
Lemma s_arg_iff v s : s_arg v = Ok s <-> v = VStr s. Proof. destruct v; cbn; split; intros H; try discriminate; congruence. Qed.
Lemma data_iff v s : data_str v = Ok s <-> v = VStr s. Proof. destruct v; cbn; split; intros H; try discriminate; congruence. Qed.
Lemma z_arg_iff v z : z_arg v = Ok z <-> number v z.
Proof. destruct v as [|[]| | | | |]; cbn; split; intros H; try discriminate; try (injection H as <-; constructor); inversion H; subst; reflexivity. Qed.
Lemma key_of_iff v k : key_param v = Ok k <-> as_key v k.
Proof. destruct v as [|[]| | | | |]; cbn; split; intros H; try discriminate; try (injection H as <-; constructor); inversion H; subst; reflexivity. Qed.
Lemma key_arg_iff v o : key_arg v = Ok o <-> key_given v o.
Proof.
  unfold key_arg. split.
  - destruct (truthy v) eqn:E; [|intros H; injection H as <-; now constructor]. destruct (key_param v) as [k|] eqn:Ek; [|discriminate]. cbn [rbind]. intros H. injection H as <-. apply key_of_iff in Ek. now constructor.
  - destruct 1 as [v H|v k H Hk]; rewrite H; [reflexivity|]. apply key_of_iff in Hk. now rewrite Hk.
Qed.
Lemma texts_iff l ss : rmap s_arg l = Ok ss <-> texts l ss.
Proof.
  revert ss. induction l as [|v l IH]; intros ss; cbn [rmap]; [split; [intros H; injection H as <-; constructor|intros H; now inversion H]|]. split.
  - destruct (s_arg v) as [s|] eqn:E; [|discriminate]. cbn [rbind]. destruct (rmap s_arg l) as [t|] eqn:El; [|discriminate]. cbn [rbind]. intros H. injection H as <-. apply s_arg_iff in E. subst v. constructor. now apply IH.
  - intros H. inversion H as [|s l' t Ht]; subst. cbn [s_arg rbind]. apply IH in Ht. now rewrite Ht.
Qed.
Lemma source_iff n t g s : source_of n t g = Ok s <-> where_from n t g s.
Proof.
  unfold source_of. assert (T : forall v x, s_arg v = Ok x -> truthy v = true -> v = VStr x /\ x <> []) by (intros v x H; apply s_arg_iff in H; subst v; intros K; split; [reflexivity|]; now destruct x). split.
  - destruct (truthy n) eqn:En; [|destruct (truthy t) eqn:Et; [|destruct (truthy g) eqn:Eg; [|intros H; injection H as <-; now constructor]]].
    all: match goal with |- context [s_arg ?v] => destruct (s_arg v) as [x|] eqn:E end; [|discriminate]; cbn [rbind]; intros H; injection H as <-; apply T in E as [-> Hx]; [|assumption]; now constructor.
  - assert (Y : forall x, x <> [] -> truthy (VStr x) = true) by (intros [|]; [congruence|reflexivity]). destruct 1 as [s t g H|n s g Hn H|n t s Hn Ht H|n t g Hn Ht Hg]; rewrite ?Hn, ?Ht, ?Hg, ?(Y _ H); reflexivity.
Qed.
Lemma int_of_iff s z : int_of s = Ok z <-> py_int s = Some z.
Proof. unfold int_of. destruct (py_int s); split; intros H; try discriminate; congruence. Qed.

Ltac vals := repeat match goal with
  | |- context [value_of ?s ?b ?n] => let x := eval vm_compute in (value_of s b n) in change (value_of s b n) with x
  | H : context [value_of ?s ?b ?n] |- _ => let x := eval vm_compute in (value_of s b n) in change (value_of s b n) with x in H end.
Ltac fwd1 := match goal with
  | H : rbind ?m _ = Ok _ |- _ => let E := fresh "E" in destruct m eqn:E; [cbn [rbind] in H|discriminate H]
  | H : keep_env _ ?m = Ok _ |- _ => unfold keep_env in H
  | H : yes_no _ _ _ = Ok _ |- _ => unfold yes_no in H
  | H : Ok ?x = Ok ?y |- _ => assert (x = y) by congruence; clear H; subst
  end.
Ltac fwd := repeat fwd1.
Ltac conv := repeat match goal with
  | E : s_arg _ = Ok _ |- _ => apply s_arg_iff in E
  | E : data_str _ = Ok _ |- _ => apply data_iff in E
  | E : key_param _ = Ok _ |- _ => apply key_of_iff in E
  | E : key_arg _ = Ok _ |- _ => apply key_arg_iff in E
  | E : z_arg _ = Ok _ |- _ => apply z_arg_iff in E
  | E : rmap s_arg _ = Ok _ |- _ => apply texts_iff in E
  | E : source_of _ _ _ = Ok _ |- _ => apply source_iff in E
  | E : int_of _ = Ok _ |- _ => apply int_of_iff in E
  end.
Ltac back := repeat match goal with
  | E : as_key _ _ |- _ => apply key_of_iff in E
  | E : key_given _ _ |- _ => apply key_arg_iff in E
  | E : number _ _ |- _ => apply z_arg_iff in E
  | E : texts _ _ |- _ => apply texts_iff in E
  | E : where_from _ _ _ _ |- _ => apply source_iff in E
  end.
(** the parameters one by one *)
Lemma len0 {A} (l : list A) : length l = 0 -> l = []. Proof. now destruct l. Qed.
Lemma lenS {A} (l : list A) n : length l = S n -> exists x t, l = x :: t /\ length t = n. Proof. destruct l as [|x t]; [discriminate|]. intros H. exists x, t. split; [reflexivity|]. now apply eq_add_S. Qed.
Ltac params := match goal with
  | H : length _ = 0 |- _ => apply len0 in H; subst
  | H : length _ = S _ |- _ => let x := fresh "v" in let t := fresh "ps" in destruct (lenS _ _ H) as (x & t & -> & ?); clear H end.
Section M.
Variables (macros : list (str * (val -> res mret))) (lookups : val) (templates : list (str * val)) (results : val).
Notation does s b env d := (match_does macros lookups templates results (value_of s b) (b_star b) env d).
Definition entry_ok (e : mentry) : Prop := forall env d b r, length (b_params b) = length (sg_params (fst (snd e))) -> length (b_kwonly b) = length (sg_kwonly (fst (snd e))) ->
  snd (snd e) env d b = Ok r <-> exists name, t_ name = fst e /\ does (fst (snd e)) b env d name r.
Ltac name_it := match goal with |- exists name, t_ name = ?x /\ _ => let n := eval vm_compute in (string_of_list_ascii x) in exists n; split; [reflexivity|] end.
Ltac start := intros env d [ps st ks] r H1 H2; cbn [fst snd b_params b_kwonly sig sig_star sg_params sg_kwonly length] in H1, H2; repeat params; cbn [fst snd]; unfold pure; cbn [p1 p2 p3 p4 b_params b_star b_kwonly]; split;
  [intros H; name_it; fwd; conv | intros (name & Hn & H); apply t_inj in Hn; subst name; inversion H; subst; clear H; vals; cbn [b_star] in *; back].
Ltac there := econstructor; vals; eauto.
Ltac rew := cbn [data_str s_arg rbind]; repeat match goal with E : ?a = Ok _ |- _ => rewrite E; clear E; cbn [rbind] | E : ?a = VStr _ |- _ => rewrite E; clear E; cbn [data_str s_arg rbind] end.
Ltac done := start; [solve [there]|unfold keep_env, yes_no; solve [rew; reflexivity]].
Lemma table_ok : Forall entry_ok (match_table macros lookups templates results).
Proof.
  unfold match_table. repeat (apply Forall_cons; [unfold entry_ok; try done|]); [..|constructor].
  - (* item *) start.
    + destruct v as [|x|z|x|x|x|x]; try discriminate E; fwd; conv; [destruct x; eapply md_item; vals; [apply nu_true|exact E|apply nu_false|exact E]|eapply md_item; vals; [constructor|exact E]|eapply md_item_text; vals; eauto].
    + match goal with H : z_arg v = Ok z |- _ => apply z_arg_iff in H; destruct H end; unfold keep_env; rew; reflexivity.
    + subst v. match goal with H : py_int _ = Some _ |- _ => apply int_of_iff in H end. unfold keep_env. rew. reflexivity.
  - (* let *) start.
    + destruct (py_eq v0 undefined) eqn:Eu; [apply md_let_value|apply md_let]; vals; assumption.
    + change (VStr (t_ "__Undefined_Var_Value__")) with undefined in *. match goal with H : py_eq _ _ = _ |- _ => rewrite H end. unfold keep_env. rew. reflexivity.
    + change (VStr (t_ "__Undefined_Var_Value__")) with undefined in *. match goal with H : py_eq _ _ = _ |- _ => rewrite H end. unfold keep_env. rew. reflexivity.
  - (* raise *) start; discriminate.
  - (* resub *) start.
    + match goal with E : (if ?c then _ else _) = Ok _ |- _ => destruct c eqn:Ez; [discriminate E|] end. apply Z.ltb_ge in Ez. eapply md_resub; vals; eauto.
    + unfold keep_env. rew. match goal with H : (0 <= z)%Z |- _ => apply Z.ltb_ge in H; rewrite H end. rew. reflexivity.
  - (* join *) start.
    + destruct d as [|x|z|x|l|x|x]; [..|fwd; conv; subst v; eapply md_join; vals; [reflexivity|reflexivity|eassumption]| |]; apply md_join_other; try assumption; intros l0; discriminate.
    + unfold keep_env. rew. reflexivity.
    + unfold keep_env. destruct d as [|x|z|x|l|x|x]; try (rew; reflexivity). exfalso. match goal with H : forall l, _ <> _ |- _ => exact (H l eq_refl) end.
Qed.
End M.

Section G.
Variables (macros : list (str * (val -> res gmret))) (lookups : val) (templates : list (str * val)) (main : val) (results : val) (k2i : bool).
Notation does s b st := (group_does macros lookups templates main results k2i (value_of s b) (b_star b) st).
Definition gentry_ok (e : gentry) : Prop := forall st b r, length (b_params b) = length (sg_params (fst (snd e))) -> length (b_kwonly b) = length (sg_kwonly (fst (snd e))) ->
  snd (snd e) st b = Ok r <-> exists name, t_ name = fst e /\ does (fst (snd e)) b st name r.
Lemma target_iff v o : target_arg v = Ok o <-> unless v "_use_source_" o.
Proof.
  unfold target_arg, unless. split.
  - destruct (s_arg v) as [s|] eqn:E; [|discriminate]. cbn [rbind]. intros H. apply s_arg_iff in E. exists s. split; [exact E|]. change (t_ "_use_source_") with $"_use_source_". congruence.
  - intros (s & -> & ->). reflexivity.
Qed.
Ltac name_it := match goal with |- exists name, t_ name = ?x /\ _ => let n := eval vm_compute in (string_of_list_ascii x) in exists n; split; [reflexivity|] end.
Ltac gstart := intros st [ps more ks] r H1 H2; cbn [fst snd b_params b_kwonly sig sig_star sg_params sg_kwonly length] in H1, H2; repeat params; cbn [fst snd]; cbn [p1 p2 p3 p4 p5 p6 p7 b_params b_star b_kwonly]; split;
  [intros H; name_it; fwd; conv; repeat match goal with E : target_arg _ = Ok _ |- _ => apply target_iff in E end
  | intros (name & Hn & H); apply t_inj in Hn; subst name; inversion H; subst; clear H; vals; cbn [b_star] in *; back; repeat match goal with E : unless _ _ _ |- _ => apply target_iff in E end].
Ltac there := econstructor; vals; eauto.
Ltac rew := cbn [data_str s_arg rbind]; repeat match goal with E : ?a = Ok _ |- _ => rewrite E; clear E; cbn [rbind] | E : ?a = VStr _ |- _ => rewrite E; clear E; cbn [data_str s_arg rbind] end.
Ltac done := gstart; [solve [there]|solve [rew; reflexivity]].
Lemma gtable_ok : Forall gentry_ok (group_table macros lookups templates main results k2i).
Proof.
  unfold group_table. repeat (apply Forall_cons; [unfold gentry_ok; try done|]); [..|constructor].
  - (* lookup *) gstart.
    + econstructor; vals; [exact E|exact E0| |].
      * destruct (truthy v3) eqn:Et; [right|left; split; [reflexivity|now injection E1 as <-]]. destruct (s_arg v3) as [f|] eqn:Ef; [|discriminate E1]. cbn [rbind] in E1. apply s_arg_iff in Ef. subst v3. exists f. split; [reflexivity|]. split; [now destruct f|congruence].
      * rewrite <- H. destruct v5 as [|[]| | | | |]; reflexivity.
    + rew. match goal with H : _ \/ _ |- _ => destruct H as [[H ->]|(f & -> & Hf & ->)] end.
      * match goal with H : truthy v3 = false |- _ => rewrite H end. cbn [rbind]. match goal with H : g_lookup _ _ _ _ _ _ _ _ _ _ = Ok _ |- _ => rewrite <- H end. destruct v5 as [|[]| | | | |]; reflexivity.
      * replace (truthy (VStr f)) with true by (destruct f; [congruence|reflexivity]). cbn [s_arg rbind]. match goal with H : g_lookup _ _ _ _ _ _ _ _ _ _ = Ok _ |- _ => rewrite <- H end. destruct v5 as [|[]| | | | |]; reflexivity.
  - (* set *) gstart.
    + econstructor; vals; [exact E|exact E0|exact H].
    + rew. assumption.
  - (* to_int *) assert (I : forall v : val, match v with VBool true => true | _ => false end = match v with VBool b => b | _ => false end) by (intros [|[]| | | | |]; reflexivity). gstart.
    + destruct (fs_data st) as [|x|x|x|x|d|x] eqn:Ed; try discriminate H. match type of H with (if ?c then _ else _) = _ => destruct c eqn:Ex; [discriminate H|] end.
      rewrite I in H. eapply gd_to_int; vals; [exact E|exact Ed| |exact H].
      intros k w Hk Hl. destruct (float_risk w) eqn:Ew; [|reflexivity]. rewrite <- Ex. symmetry. apply existsb_exists. exists (k, w). split; [exact Hk|]. cbn [fst snd]. rewrite Ew, andb_true_r. apply orb_true_iff.
      destruct Hl as [->|(n & Hn & ->)]; [now left|right]. apply existsb_exists. exists n. split; [exact Hn|]. apply key_eqb_refl.
    + rew. match goal with H : fs_data st = _ |- _ => rewrite H end. match goal with |- context [existsb ?f d] => destruct (existsb f d) eqn:Ex end.
      * exfalso. apply existsb_exists in Ex as ([k w] & Hk & Ex). cbn [fst snd] in Ex. apply andb_true_iff in Ex as [Hl Hw]. match goal with H : forall k v, In (k, v) d -> _ |- _ => rewrite (H k w Hk) in Hw; [discriminate|] end.
        apply orb_true_iff in Hl as [Hl|Hl]; [left; now destruct l|right]. apply existsb_exists in Hl as (n & Hn & Hl). exists n. split; [exact Hn|]. symmetry. now apply key_eqb_eq.
      * rewrite I. assumption.
Qed.
End G.
