(** * OutputRunFacts: outputs run as SpecOutputTags says. *)
From Coq Require Import Lia Sorting.Sorted.
From Verif Require Import PyBase Regex Template Attributes MatchVar Compile FuncTable Loaders Session Files Inputs Outputs JsonDump OutputTags PyEqFacts.
From Verif Require Import SpecVariable SpecAttr SpecText SpecCalls SpecFiles SpecInputs SpecOutput SpecJson SpecOutputTags.
From Verif Require Import StrFacts DictFacts ParserFacts2 SessionFacts MadeFacts CallFacts CallFacts2 TextFacts InputFacts JsonDumpFacts OutputFacts OutputTagFacts.
Local Open Scope string_scope.
Local Open Scope list_scope.

Lemma value_key k : Outputs.key_val k = SpecOutput.value_of k.
Proof. now destruct k. Qed.
(** ** dict_to_list *)
Fixpoint mark (k : str) (d : dict) : dict :=
  match d with
  | [] => []
  | (i, v) :: t => match v with VDict vd => (i, VDict (dset vd (KS k) (SpecOutput.value_of i))) :: mark k t | _ => d end
  end.
Lemma mark_iff k d : forall d', keyed_dict k d d' <-> d' = mark k d.
Proof.
  induction d as [|[i v] d IH]; intros d'.
  - split; [intros K; now inversion K|]. intros ->. constructor.
  - assert (D : (exists vd, v = VDict vd) \/ forall vd, v <> VDict vd) by (destruct v; try (right; intros; discriminate); left; eauto). destruct D as [[vd ->]|D].
    + cbn [mark]. split.
      * intros K. inversion K as [|? ? ? N|? ? r ? d2 (vd' & E & ->) K2]; subst; [now elim (N vd)|]. cbn [snd] in E. injection E as <-. apply IH in K2. now subst.
      * intros ->. constructor; [|now apply IH]. exists vd. now split.
    + assert (E : mark k ((i, v) :: d) = (i, v) :: d) by (destruct v; try reflexivity; now elim (D d0)). rewrite E. split.
      * intros K. inversion K as [|? ? ? N|? ? r ? d2 (vd' & E' & ->) K2]; subst; [reflexivity|]. now elim (D vd').
      * intros ->. now constructor.
Qed.
Definition dicts (d : dict) : bool := forallb (fun kv : key * val => match snd kv with VDict _ => true | _ => false end) d.
Lemma dicts_iff d : dicts d = true <-> all_dicts d.
Proof. unfold dicts, all_dicts. rewrite forallb_forall, Forall_forall. split; intros H kv Hk; specialize (H kv Hk); destruct (snd kv); try discriminate; eauto; destruct H as [? H]; discriminate. Qed.
Lemma dtl_mark k d : forall done acc, dtl_items k d done acc = (if dicts d then VList (acc ++ map snd (mark k d)) else VDict (done ++ mark k d), VDict (done ++ mark k d)).
Proof.
  induction d as [|[i v] d IH]; intros done acc; cbn [dtl_items].
  - cbn [dicts forallb mark map]. now rewrite !app_nil_r.
  - destruct v as [| | | | |vd|]; try reflexivity. rewrite IH. cbn [mark map snd]. rewrite value_key. change (dicts ((i, VDict vd) :: d)) with (dicts d). rewrite <- !app_assoc. reflexivity.
Qed.
Lemma plain_or v : plain_value v \/ (exists l, v = VList l) \/ exists d, v = VDict d.
Proof. destruct v; try (left; split; intros; discriminate); right; [left|right]; eauto. Qed.
Lemma listed_iff k v : forall y, listed k v y <-> y = fst (dict_to_list k v).
Proof.
  induction v as [|b|z|s|l IH|d|n] using val_rect'; intros y; try (split; [intros K; inversion K; subst; reflexivity|intros ->; apply li_other; split; intros; discriminate]).
  - cbn [dict_to_list fst]. split.
    + intros K. inversion K as [| |? l' F|? [_ P]]; subst; [|now elim (P l)]. f_equal. rewrite map_map. clear K. revert l' F. induction IH as [|x l Hx _ IHl]; intros l' F; inversion F; subst; [reflexivity|]. cbn [map]. f_equal; [now apply Hx|now apply IHl].
    + intros ->. constructor. rewrite map_map. induction IH as [|x l Hx _ IHl]; cbn [map]; constructor; [now apply Hx|exact IHl].
  - cbn [dict_to_list]. rewrite dtl_mark. cbn [fst app]. split.
    + intros K. inversion K as [? d' M A|? d' M A| |? [P _]]; subst; [| |now elim (P d)]; apply mark_iff in M; subst d'.
      * apply dicts_iff in A. now rewrite A.
      * destruct (dicts d) eqn:D; [elim A; now apply dicts_iff|reflexivity].
    + intros ->. destruct (dicts d) eqn:D; [apply li_dict; [now apply mark_iff|now apply dicts_iff]|]. apply li_mixed; [now apply mark_iff|]. intros A. apply dicts_iff in A. congruence.
Qed.
Lemma keyed_value_iff k v : forall y, keyed_value k v y <-> y = snd (dict_to_list k v).
Proof.
  induction v as [|b|z|s|l IH|d|n] using val_rect'; intros y; try (split; [intros K; inversion K; subst; reflexivity|intros ->; apply kv_other; split; intros; discriminate]).
  - cbn [dict_to_list snd]. split.
    + intros K. inversion K as [|? l' F|? [_ P]]; subst; [|now elim (P l)]. f_equal. rewrite map_map. clear K. revert l' F. induction IH as [|x l Hx _ IHl]; intros l' F; inversion F; subst; [reflexivity|]. cbn [map]. f_equal; [now apply Hx|now apply IHl].
    + intros ->. constructor. rewrite map_map. induction IH as [|x l Hx _ IHl]; cbn [map]; constructor; [now apply Hx|exact IHl].
  - cbn [dict_to_list]. rewrite dtl_mark. cbn [snd app]. split.
    + intros K. inversion K as [? d' M| |? [P _]]; subst; [|now elim (P d)]. apply mark_iff in M. now subst.
    + intros ->. constructor. now apply mark_iff.
Qed.
(** ** tables *)
Lemma keyed_all k d rs : Forall2 (keyed k) d rs <-> all_dicts d /\ rs = map snd (mark k d).
Proof.
  split.
  - intros F. induction F as [|[i v] r d rs (vd & E & ->) F [IH1 ->]]; [split; [constructor|reflexivity]|]. cbn [snd fst] in E |- *. subst v. split; [constructor; [now exists vd|exact IH1]|]. reflexivity.
  - intros [A ->]. induction A as [|[i v] d [vd E] A IH]; [constructor|]. cbn [snd] in E. subst v. cbn [mark map snd]. constructor; [now exists vd|exact IH].
Qed.
Definition is_dicts (l : list val) : Prop := Forall (fun it => exists d, it = VDict d) l.
Lemma items_iff path k strict x r : is_dicts r -> (table_items path k strict x = Ok r <-> exists y, selects strict path x y /\ adds k y r).
Proof.
  intros D. unfold table_items. split.
  - intros H. destruct (traverse strict path x) as [y|] eqn:E; [|discriminate]. cbn [rbind] in H. apply traverse_selects in E. exists y. split; [exact E|]. destruct (truthy y) eqn:Et; cbn [negb] in H.
    + destruct y as [| | | |l|d|]; try (injection H as <-; apply ad_other; split; intros ? ?; discriminate).
      * injection H as <-. apply ad_list.
      * assert (Hne : d <> []) by (intros ->; discriminate). destruct k as [|c kn]; [injection H as <-; now apply ad_dict|].
        cbn [dict_to_list] in H. rewrite dtl_mark in H. cbn [fst app] in H. destruct (dicts d) eqn:Dd.
        -- injection H as <-. apply ad_entries; [exact Hne|discriminate|]. apply keyed_all. split; [now apply dicts_iff|reflexivity].
        -- exfalso. injection H as <-. destruct d as [|[i v] d]; [congruence|]. destruct (mark (c :: kn) ((i, v) :: d)) as [|[i' v'] m] eqn:Em; [destruct v; discriminate Em|]. inversion D as [|? ? [z K] _]; subst. cbn [fst] in K. destruct i'; discriminate.
    + injection H as <-. destruct y as [| | | |l|d|]; try (apply ad_other; split; intros ? ?; discriminate).
      * destruct l; [apply ad_list|discriminate].
      * destruct d; [apply ad_empty|discriminate].
  - intros (y & S & A). apply traverse_selects in S. rewrite S. cbn [rbind]. destruct A as [l| |d H1 H2|d rs H1 H2 F|v [P1 P2]].
    + destruct l; reflexivity.
    + reflexivity.
    + subst k. destruct d; [congruence|reflexivity].
    + apply keyed_all in F as [F1 F2]. replace (truthy (VDict d)) with true by (destruct d; [congruence|reflexivity]). cbn [negb]. destruct k as [|c kn]; [congruence|]. cbn [dict_to_list]. rewrite dtl_mark. cbn [fst app]. apply dicts_iff in F1. rewrite F1. now subst.
    + destruct (truthy v); cbn [negb]; [|reflexivity]. destruct v; try reflexivity; [now elim (P2 l)|now elim (P1 d)].
Qed.
Lemma concat_res_iff {A} (l : list (res (list A))) r : concat_res l = Ok r <-> exists ls, Forall2 (fun x y => x = Ok y) l ls /\ r = concat ls.
Proof.
  split; [apply concat_res_ok|]. intros (ls & F & ->). induction F as [|x y l ls -> _ IH]; [reflexivity|]. cbn [concat_res rbind concat]. now rewrite IH.
Qed.
Lemma keys_unique (a b : list key) : StronglySorted key_before a -> StronglySorted key_before b -> (forall k, In k a <-> In k b) -> a = b.
Proof.
  assert (I : forall k, ~ key_before k k).
  { intros k K. inversion K as [s t B|]; subst; [|lia]. clear K. induction s as [|c s IH]; inversion B; subst; [lia|now apply IH]. }
  revert b. induction a as [|x a IH]; intros b A B H.
  - destruct b as [|y b]; [reflexivity|]. elim (proj2 (H y) (or_introl eq_refl)).
  - destruct b as [|y b]; [elim (proj1 (H x) (or_introl eq_refl))|]. apply StronglySorted_inv in A as [A1 A2]. apply StronglySorted_inv in B as [B1 B2]. rewrite Forall_forall in A2, B2.
    assert (E : x = y). { destruct (proj1 (H x) (or_introl eq_refl)) as [->|X]; [reflexivity|]. destruct (proj2 (H y) (or_introl eq_refl)) as [->|Y]; [reflexivity|]. apply A2 in Y. apply B2 in X. elim (I x). now apply (key_before_trans x y x). }
    subst y. f_equal. apply IH; try assumption. intros k. split; intros K.
    + destruct (proj1 (H k) (or_intror K)) as [->|J]; [apply A2 in K; now elim (I k)|exact J].
    + destruct (proj2 (H k) (or_intror K)) as [->|J]; [apply B2 in K; now elim (I k)|exact J].
Qed.
(** keys that stand in one sorted list compare *)
Definition comparable (hs : list key) (k : key) : Prop := In k hs.
Lemma insert_sorted hs (S : StronglySorted key_before hs) k l : In k hs -> incl l hs -> ~ In k l -> exists l', insert_key k l = Ok l' /\ incl l' hs.
Proof.
  intros I. induction l as [|x l IH]; intros C N; cbn [insert_key].
  - exists [k]. split; [reflexivity|]. intros y [<-|[]]. exact I.
  - assert (X : In x hs) by (apply C; now left).
    assert (K : exists b, key_lt k x = Ok b).
    { assert (key_before k x \/ key_before x k) as [K|K].
      - clear - S I X N. assert (Ne : k <> x) by (intros ->; apply N; now left). induction S as [|y hs S IH F]; [destruct I|]. rewrite Forall_forall in F. destruct I as [->|I], X as [->|X]; [congruence|left; now apply F|right; now apply F|now apply IH].
      - exists true. now apply key_lt_before.
      - inversion K; subst; cbn [key_lt]; eauto. }
    destruct K as [[|] ->]; cbn [rbind].
    + exists (k :: x :: l). split; [reflexivity|]. intros y [<-|Y]; [exact I|now apply C].
    + destruct IH as (l' & E & C'); [intros y Y; apply C; now right|intros Y; apply N; now right|]. rewrite E. exists (x :: l'). split; [reflexivity|]. intros y [<-|Y]; [exact X|now apply C'].
Qed.
Lemma insert_members k l : forall l', insert_key k l = Ok l' -> forall x, In x l' -> x = k \/ In x l.
Proof.
  induction l as [|y l IH]; intros l' H x Hx; cbn [insert_key] in H.
  - injection H as <-. destruct Hx as [<-|[]]. now left.
  - destruct (key_lt k y) as [[|]|]; try discriminate; cbn [rbind] in H.
    + injection H as <-. destruct Hx as [<-|Hx]; [now left|now right].
    + destruct (insert_key k l) as [t|]; [|discriminate]. cbn [rbind] in H. injection H as <-. destruct Hx as [<-|Hx]; [right; now left|]. destruct (IH t eq_refl x Hx); [now left|right; now right].
Qed.
Lemma sort_sorted hs (S : StronglySorted key_before hs) l : forall acc, NoDup l -> incl l hs -> incl acc hs -> (forall x, In x acc -> ~ In x l) -> exists l', rfold (fun acc k => insert_key k acc) l acc = Ok l'.
Proof.
  induction l as [|k l IH]; intros acc N C A D; cbn [rfold]; [now eexists|]. inversion N as [|? ? N1 N2]; subst.
  destruct (insert_sorted hs S k acc) as (a' & E & C'); [apply C; now left|exact A|intros X; apply (D k X); now left|]. rewrite E. cbn [rbind]. apply IH; [exact N2|intros y Y; apply C; now right|exact C'|].
  intros x X Y. destruct (insert_members k acc a' E x X) as [->|Z]; [contradiction|]. apply (D x Z). now right.
Qed.
Lemma all_keys_total recs : is_dicts recs -> forall acc, exists ks, rfold (fun acc it => match it with VDict d => Ok (add_keys acc (map fst d)) | _ => Raise AttributeError end) recs acc = Ok ks.
Proof. induction 1 as [|r recs [d ->] _ IH]; intros acc; cbn [rfold rbind]; [now exists acc|apply IH]. Qed.
Lemma headers_iff recs headers hs : is_dicts recs -> (table_headers headers recs = Ok hs <-> headers_for recs headers hs).
Proof.
  intros D. destruct headers as [|h headers].
  - split; [intros H; apply headers_ok in H as [H1 H2]; now constructor|]. intros K. inversion K as [|? S M]; subst; [congruence|]. cbn [table_headers].
    destruct (all_keys_total recs D []) as (ks & E). unfold all_keys. rewrite E. cbn [rbind]. apply all_keys_ok in E as [E1 E2]; [|constructor].
    assert (Q : forall k, In k ks <-> In k hs) by (intros k; rewrite M, E2; cbn [In]; tauto).
    destruct (sort_sorted hs S ks []) as (l & El); [exact E1|intros k; apply Q|intros ? []|intros ? []|]. unfold sort_keys. rewrite El. f_equal. apply sort_keys_ok in El as [S1 S2]; [|exact E1|intros ? []|constructor]. apply keys_unique; [exact S1|exact S|]. intros k. rewrite S2, Q. cbn [In]. tauto.
  - cbn [table_headers]. split; [intros H; injection H as <-; constructor; discriminate|]. intros K. inversion K; subst. reflexivity.
Qed.
Lemma nth_ext_error {A} (a : list A) : forall b, (forall i, nth_error a i = nth_error b i) -> a = b.
Proof.
  induction a as [|x a IH]; intros [|y b] H; try reflexivity; try (specialize (H 0); discriminate H). pose proof (H 0) as H0. cbn [nth_error] in H0. injection H0 as ->. f_equal. apply IH. intros i. exact (H (S i)).
Qed.
Lemma row_unique missing hs d r r' : row_of missing hs d r -> row_of missing hs d r' -> r = r'.
Proof.
  intros (L & F & S) (L' & F' & S'). apply nth_ext_error. intros i. destruct (nth_error hs i) as [h|] eqn:E.
  - assert (D : (exists j, j < i /\ nth_error hs j = Some h) \/ forall j, j < i -> nth_error hs j <> Some h).
    { clear. induction i as [|i IH]; [right; lia|]. destruct IH as [(j & H & E)|IH]; [left; exists j; split; [lia|exact E]|].
      destruct (nth_error hs i) as [h'|] eqn:E; [destruct (key_dec h' h) as [->|N]|].
      - left. exists i. split; [lia|exact E].
      - right. intros j H. destruct (PeanoNat.Nat.eq_dec j i) as [->|]; [congruence|apply IH; lia].
      - right. intros j H. destruct (PeanoNat.Nat.eq_dec j i) as [->|]; [congruence|apply IH; lia]. }
    destruct D as [(j & H & E')|D]; [rewrite (S i j h H E E'), (S' i j h H E E'); reflexivity|]. now rewrite (F i h E D), (F' i h E D).
  - apply nth_error_None in E. rewrite !(proj2 (nth_error_None _ _)) by lia. reflexivity.
Qed.
Lemma rows_iff missing hs recs rows : Forall vok recs -> (rmap (table_row missing hs) recs = Ok rows <-> Forall2 (fun r row => exists d, r = VDict d /\ row_of missing hs d row) recs rows).
Proof.
  intros V. rewrite rmap_ok. split; intros F.
  - induction F as [|r row recs rows H F IH]; [constructor|]. apply Forall_cons_iff in V as [V1 V]. constructor; [|now apply IH]. destruct r as [| | | | |d|]; try discriminate. cbn [table_row] in H. injection H as <-. exists d. split; [reflexivity|]. apply fill_row_row. now inversion V1.
  - induction F as [|r row recs rows (d & -> & H) F IH]; [constructor|]. apply Forall_cons_iff in V as [V1 V]. constructor; [|now apply IH]. cbn [table_row]. f_equal. apply (row_unique missing hs d); [|exact H]. apply fill_row_row. now inversion V1.
Qed.
(** ** values stay well formed *)
Lemma vok_at path v w : at_path path v w -> vok v -> vok w.
Proof. induction 1 as [v|i p d x w G A IH]; intros V; [exact V|]. apply IH. inversion V as [| | | | | |? W F]; subst. rewrite Forall_forall in F. apply dget_In in G. exact (F _ G). Qed.
Lemma vok_selects strict path v : forall w, selects strict path v w -> vok v -> vok w.
Proof.
  induction v as [|b|z|s|l IH|d|n] using val_rect'; intros y S V; try (inversion S; subst; exact V).
  - inversion S as [| |? r F|? [_ P]]; subst; [|now elim (P l)]. constructor. inversion V as [| | | | |? W|]; subst. clear S V. revert r F. induction IH as [|x l Hx _ IHl]; intros r F; inversion F; subst; [constructor|]. apply Forall_cons_iff in W as [W1 W]. constructor; [now apply Hx|now apply IHl].
  - inversion S as [? ? A|? He E| |? [P _]]; subst; [now apply (vok_at _ _ _ A)|constructor; [apply dwf_nil|constructor]|now elim (P d)].
Qed.
Lemma vok_value k : vok (SpecOutput.value_of k).
Proof. destruct k; constructor. Qed.
Lemma vok_dset (d : dict) k v : vok (VDict d) -> vok v -> vok (VDict (dset d k v)).
Proof.
  intros D V. inversion D as [| | | | | |? W F]; subst. constructor; [now apply dwf_dset|]. clear - F V. induction F as [|[i x] d H F IH]; cbn [dset]; [constructor; [exact V|constructor]|]. destruct (key_eqb k i); constructor; try assumption.
Qed.
Lemma mark_keys k d : map fst (mark k d) = map fst d.
Proof. induction d as [|[i v] d IH]; [reflexivity|]. cbn [mark]. destruct v; try reflexivity. cbn [map fst]. now rewrite IH. Qed.
Lemma vok_mark k d : Forall (fun kv => vok (snd kv)) d -> Forall (fun kv => vok (snd kv)) (mark k d).
Proof.
  induction 1 as [|[i v] d V F IH]; [constructor|]. cbn [mark]. cbn [snd] in V. destruct v; try (constructor; assumption). constructor; [|exact IH]. cbn [snd]. now apply vok_dset; [|apply vok_value].
Qed.
Lemma vok_listed k v : vok v -> vok (fst (dict_to_list k v)).
Proof.
  induction v as [|b|z|s|l IH|d|n] using val_rect'; intros V; try (constructor; constructor).
  - cbn [dict_to_list fst]. rewrite map_map. constructor. inversion V as [| | | | |? W|]; subst. clear V. induction IH as [|x l Hx _ IHl]; [constructor|]. apply Forall_cons_iff in W as [W1 W]. cbn [map]. constructor; [now apply Hx|now apply IHl].
  - cbn [dict_to_list]. rewrite dtl_mark. cbn [fst app]. inversion V as [| | | | | |? W F]; subst. apply (vok_mark k) in F. destruct (dicts d).
    + constructor. now apply Forall_map.
    + constructor; [|exact F]. unfold dwf, dkeys. rewrite mark_keys. exact W.
Qed.
Lemma adds_vok k y r : adds k y r -> vok y -> Forall vok r.
Proof.
  intros A V. destruct A as [l| |d H1 H2|d rs H1 H2 F|v P]; try constructor.
  - now inversion V.
  - exact V.
  - constructor.
  - apply keyed_all in F as [_ ->]. apply Forall_map. apply vok_mark. now inversion V.
Qed.
Theorem table_iff path missing k strict headers data hs rows : vok data -> (table path missing k strict headers data = Ok (hs, rows) <-> tabulated path missing k strict headers data hs rows).
Proof.
  intros V. unfold table, tabulated, table_data.
  assert (Src : forall src, data_of data src <-> src = table_source data).
  { intros src. destruct (plain_or data) as [P|[[l ->]|[d ->]]]; cbn [table_source].
    - assert (E : table_source data = []) by (destruct P as [P1 P2]; destruct data; try reflexivity; [now elim (P2 l)|now elim (P1 d)]). rewrite E. split; [|intros ->; now constructor]. intros K. inversion K; subst; [now elim (proj2 P src)|now elim (proj1 P d)|reflexivity].
    - split; [|intros ->; constructor]. intros K. inversion K as [|? |? [P1 P2]]; subst; [reflexivity|now elim (P2 l)].
    - split; [|intros ->; constructor]. intros K. inversion K as [|? |? [P1 P2]]; subst; [reflexivity|now elim (P1 d)]. }
  assert (Vs : Forall vok (table_source data)). { destruct data; cbn [table_source]; try (constructor; fail); [inversion V as [| | | | |? W|]; exact W|]. constructor; [exact V|constructor]. }
  assert (Vr : forall recss, Forall2 (fun x r => exists y, selects strict path x y /\ adds k y r) (table_source data) recss -> Forall vok (concat recss)).
  { intros recss F. clear Src. revert Vs F. generalize (table_source data) as src. intros src Vs F. induction F as [|x r l rs (y & S & A) F IH]; [constructor|]. apply Forall_cons_iff in Vs as [V1 Vs]. cbn [concat]. apply Forall_app. split; [|now apply IH]. apply (adds_vok k y); [exact A|]. now apply (vok_selects strict path x). }
  split.
  - intros H. destruct (concat_res _) as [items|] eqn:Ed; [|discriminate]. cbn [rbind] in H. destruct (table_headers headers items) as [hs'|] eqn:Eh; [|discriminate]. cbn [rbind] in H.
    destruct (rmap (table_row missing hs') items) as [rows'|] eqn:Er; [|discriminate]. cbn [rbind] in H. injection H as -> ->.
    assert (D : is_dicts items). { apply rmap_ok in Er. clear - Er. induction Er as [|it row l r H _ IH]; constructor; [|exact IH]. destruct it; try discriminate. now eexists. }
    apply concat_res_iff in Ed as (recss & F & ->). exists (table_source data), recss. split; [now apply Src|].
    assert (F' : Forall2 (fun x r => exists y, selects strict path x y /\ adds k y r) (table_source data) recss).
    { clear - F D. remember (map (table_items path k strict) (table_source data)) as l eqn:El. revert El. generalize (table_source data). induction F as [|x y l ls Hx _ IH]; intros src El; destruct src as [|s src]; try discriminate; [constructor|]. cbn [map] in El. injection El as -> ->. cbn [concat] in D. apply Forall_app in D as [D1 D2]. constructor; [|now apply IH]. now apply items_iff. }
    split; [exact F'|]. split; [now apply headers_iff|]. apply rows_iff; [now apply Vr|exact Er].
  - intros (src & recss & S & F & H & R). apply Src in S. subst src.
    assert (D : is_dicts (concat recss)). { clear - R. induction R as [|r row l rs (d & -> & _) _ IH]; constructor; [now exists d|exact IH]. }
    rewrite (proj2 (concat_res_iff _ (concat recss))).
    + cbn [rbind]. apply headers_iff in H; [|exact D]. rewrite H. cbn [rbind]. apply rows_iff in R; [|now apply Vr]. rewrite R. reflexivity.
    + exists recss. split; [|reflexivity]. clear - F D. induction F as [|x r l rs H F IH]; cbn [map]; constructor; cbn [concat] in D; apply Forall_app in D as [D1 D2]; [|now apply IH]. now apply items_iff.
Qed.
(** ** functions *)
Lemma has_attr_iff o n d v : has_attr o n d v <-> v = match dget (ot_attrs o) (KS (t_ n)) with Some x => x | None => d end.
Proof. destruct (dget (ot_attrs o) (KS (t_ n))) as [x|] eqn:E; split; intros K; try (inversion K; congruence); subst; [now apply ha_given|now apply ha_default]. Qed.
Lemma way_iff v l : path_arg v = Ok l <-> way v l.
Proof.
  destruct v; cbn [path_arg]; try (split; [discriminate|intros K; inversion K]).
  - split; [intros K; assert (split_path s = l) as <- by congruence; constructor; now apply dots_iff|]. intros K. inversion K as [? ? D|]; subst. apply dots_iff in D. now rewrite D.
  - rewrite texts_iff. split; [intros K; now constructor|]. intros K. now inversion K.
Qed.
Lemma way_none_iff v l : (if truthy v then path_arg v else Ok []) = Ok l <-> way_or_none v l.
Proof.
  unfold way_or_none. destruct (truthy v).
  - rewrite way_iff. split; [intros K; now left|intros [[_ K]|[K _]]; [exact K|discriminate]].
  - split; [intros K; right; split; [reflexivity|congruence]|intros [[K _]|[_ ->]]; [discriminate|reflexivity]].
Qed.
Lemma traverse_sig : traverse_def = sig [req $"path"; opt $"strict" (VBool true)].
Proof. reflexivity. Qed.
Lemma list_sig : dict_to_list_def = sig [opt $"key_name" (VStr $"key"); opt $"path" VNone; opt $"strict" (VBool false)].
Proof. reflexivity. Qed.
Lemma equal_sig : is_equal_def = sig [].
Proof. reflexivity. Qed.
Lemma macro_sig : macro_def = sig [req $"macro_name"].
Proof. reflexivity. Qed.
Lemma find_defined ms n : match find (fun m : str * macro => str_eqb (fst m) n) ms with Some (n', f) => n' = n /\ defined ms n f | None => ~ In n (map fst ms) end.
Proof.
  induction ms as [|[m g] ms IH]; [intros []|]. cbn [find fst map]. destruct (str_eqb m n) eqn:E.
  - apply str_eqb_eq in E. subst m. split; [reflexivity|]. exists [], ms. split; [reflexivity|intros []].
  - apply str_eqb_neq in E. destruct (find _ ms) as [[n' f]|].
    + destruct IH as [-> (p & q & -> & H)]. split; [reflexivity|]. exists ((m, g) :: p), q. split; [reflexivity|]. cbn [map fst]. intros [K|K]; [congruence|contradiction].
    + intros [K|K]; [congruence|contradiction].
Qed.
Lemma defined_unique ms n f g : defined ms n f -> defined ms n g -> f = g.
Proof.
  intros (p & q & -> & H) (p' & q' & E & H'). revert p' E H'. induction p as [|[m h] p IH]; intros [|[m' h'] p'] E H'; cbn [app] in E.
  - injection E as -> _. reflexivity.
  - injection E as -> -> _. elim H'. now left.
  - injection E as -> -> _. elim H. now left.
  - injection E as -> -> E. apply (IH (fun K => H (or_intror K)) p' E). intros K. apply H'. now right.
Qed.
Theorem call_iff ms o a x y : call_output ms o a x = Ok y <-> function_gives ms o a x y.
Proof.
  unfold call_output. cbv zeta. destruct (str_eqb (at_name a) $"traverse") eqn:E1.
  { apply str_eqb_eq in E1. rewrite <- traverse_sig. split.
    - intros K. destruct (bind traverse_def _ _) as [b|] eqn:B; [|discriminate]. cbn [rbind] in K. apply bind_iff in B. destruct (bound_length _ _ _ _ B) as [L1 L2]. destruct b as [ps st kw]. cbn [b_params b_kwonly] in *. change (length (sg_params traverse_def)) with 2 in L1. change (length (sg_kwonly traverse_def)) with 0 in L2.
      destruct ps as [|p [|s [|]]]; try discriminate. destruct kw; [|discriminate]. destruct (path_arg p) as [l|] eqn:P; [|discriminate]. cbn [rbind] in K. apply way_iff in P. apply traverse_selects in K. now apply (fg_traverse ms o a x {| b_params := [p; s]; b_star := st; b_kwonly := [] |} l).
    - intros K. destruct K as [b l y E B P S|b k y E|b k l z y E|b c d t E|b n E|b n f y E]; try (rewrite E1 in E; discriminate E). rewrite (proj2 (bind_iff _ _ _ _) B). cbn [rbind]. destruct (bound_length _ _ _ _ B) as [L1 L2]. destruct b as [ps st kw]. cbn [b_params b_kwonly] in *. change (length (sg_params traverse_def)) with 2 in L1. change (length (sg_kwonly traverse_def)) with 0 in L2.
      destruct ps as [|p [|s [|]]]; try discriminate. destruct kw; [|discriminate]. change (SpecCalls.value_of traverse_def {| b_params := [p; s]; b_star := st; b_kwonly := [] |} "path") with p in P. change (SpecCalls.value_of traverse_def {| b_params := [p; s]; b_star := st; b_kwonly := [] |} "strict") with s in S. apply way_iff in P. rewrite P. cbn [rbind]. now apply traverse_selects. }
  assert (N1 : at_name a <> t_ "traverse") by (now apply str_eqb_neq in E1).
  destruct (str_eqb (at_name a) $"dict_to_list") eqn:E2.
  { apply str_eqb_eq in E2. rewrite <- list_sig. split.
    - intros K. destruct (bind dict_to_list_def _ _) as [b|] eqn:B; [|discriminate]. cbn [rbind] in K. apply bind_iff in B. destruct (bound_length _ _ _ _ B) as [L1 L2]. destruct b as [ps st kw]. cbn [b_params b_kwonly] in *. change (length (sg_params dict_to_list_def)) with 3 in L1. change (length (sg_kwonly dict_to_list_def)) with 0 in L2.
      destruct ps as [|k [|p [|s [|]]]]; try discriminate. destruct kw; [|discriminate]. destruct (s_arg k) as [kn|] eqn:Ek; [|discriminate]. cbn [rbind] in K. destruct k as [| | |kn'| | |]; try discriminate Ek. injection Ek as ->.
      destruct (if truthy p then path_arg p else Ok []) as [l|] eqn:P; [|discriminate]. cbn [rbind] in K. apply way_none_iff in P. unfold dict_to_list_at in K. destruct l as [|i l].
      + injection K as <-. apply (fg_dict_to_list ms o a x {| b_params := [VStr kn; p; s]; b_star := st; b_kwonly := [] |} kn); [exact E2|exact B|reflexivity|exact P|now apply listed_iff].
      + destruct (traverse (truthy s) (i :: l) x) as [z|] eqn:T; [|discriminate]. cbn [rbind] in K. injection K as <-. apply traverse_selects in T. apply (fg_dict_to_list_at ms o a x {| b_params := [VStr kn; p; s]; b_star := st; b_kwonly := [] |} kn (i :: l) z); [exact E2|exact B|reflexivity|exact P|discriminate|exact T|now apply listed_iff].
    - intros K. destruct K as [b l y E|b k y E B Ek P L|b k l z y E B Ek P N S L|b c d t E|b n E|b n f y E]; try (rewrite E2 in E; discriminate E); rewrite (proj2 (bind_iff _ _ _ _) B); cbn [rbind]; destruct (bound_length _ _ _ _ B) as [L1 L2]; destruct b as [ps st kw]; cbn [b_params b_kwonly] in *; change (length (sg_params dict_to_list_def)) with 3 in L1; change (length (sg_kwonly dict_to_list_def)) with 0 in L2;
      (destruct ps as [|kv [|p [|s [|]]]]; try discriminate); (destruct kw; [|discriminate]); change (SpecCalls.value_of dict_to_list_def {| b_params := [kv; p; s]; b_star := st; b_kwonly := [] |} "key_name") with kv in Ek; change (SpecCalls.value_of dict_to_list_def {| b_params := [kv; p; s]; b_star := st; b_kwonly := [] |} "path") with p in P; rewrite Ek; cbn [s_arg rbind]; apply way_none_iff in P; rewrite P; cbn [rbind].
      + apply listed_iff in L. unfold dict_to_list_at. now subst.
      + change (SpecCalls.value_of dict_to_list_def {| b_params := [kv; p; s]; b_star := st; b_kwonly := [] |} "strict") with s in S. apply traverse_selects in S. apply listed_iff in L. unfold dict_to_list_at. destruct l; [congruence|]. rewrite S. cbn [rbind]. now subst. }
  assert (N2 : at_name a <> t_ "dict_to_list") by (now apply str_eqb_neq in E2).
  destruct (str_eqb (at_name a) $"is_equal") eqn:E3.
  { apply str_eqb_eq in E3. rewrite <- equal_sig. split.
    - intros K. destruct (bind is_equal_def _ _) as [b|] eqn:B; [|discriminate]. cbn [rbind] in K. apply bind_iff in B. destruct (is_equal (ot_load o) x) as [t|] eqn:Q; [|discriminate]. cbn [rbind] in K.
      destruct (is_equal_raises (ot_load o) x) as [[c C]|R]; [|rewrite R in Q; discriminate]. destruct (is_equal_iff (ot_load o) x c C) as (t' & Q' & V). assert (t' = t) by congruence. subst t'.
      assert (y = VDict [(KS (t_ "output_name"), ot_name o); (KS (t_ "output_description"), description o); (KS (t_ "is_equal"), VBool t)]) as ->. { change (t_ "output_name") with $"output_name". change (t_ "output_description") with $"output_description". change (t_ "is_equal") with $"is_equal". congruence. }
      apply (fg_is_equal ms o a x b c); [exact E3|exact B|exact C|exact V|]. apply has_attr_iff. reflexivity.
    - intros K. destruct K as [b l y E|b k y E|b k l z y E|b c d t E B C V H|b n E|b n f y E]; try (rewrite E3 in E; discriminate E). rewrite (proj2 (bind_iff _ _ _ _) B). cbn [rbind]. destruct (is_equal_iff (ot_load o) x c C) as (t' & Q' & V'). rewrite Q'. cbn [rbind].
      assert (t' = t) by (apply Bool.eq_iff_eq_true; rewrite V, V'; reflexivity). subst t'. apply has_attr_iff in H. rewrite H. reflexivity. }
  assert (N3 : at_name a <> t_ "is_equal") by (now apply str_eqb_neq in E3).
  destruct (str_eqb (at_name a) $"macro") eqn:E4.
  { apply str_eqb_eq in E4. unfold output_macro. rewrite <- macro_sig. split.
    - intros K. destruct (bind macro_def _ _) as [b|] eqn:B; [|discriminate]. cbn [rbind] in K. apply bind_iff in B. destruct (bound_length _ _ _ _ B) as [L1 L2]. destruct b as [ps st kw]. cbn [b_params b_kwonly] in *. change (length (sg_params macro_def)) with 1 in L1. change (length (sg_kwonly macro_def)) with 0 in L2.
      destruct ps as [|p [|]]; try discriminate. destruct kw; [|discriminate]. change (p1 {| b_params := [p]; b_star := st; b_kwonly := [] |}) with p in K. destruct (s_arg p) as [n|] eqn:Ek; [|discriminate]. cbn [rbind] in K. destruct p as [| | |n'| | |]; try discriminate Ek. injection Ek as ->.
      pose proof (find_defined ms n) as D. destruct (find (fun m => str_eqb (fst m) n) ms) as [[n' f]|].
      + destruct D as [-> D]. cbn [snd] in K. destruct (f x) as [r|] eqn:Fx; [|discriminate]. cbn [rbind] in K. destruct r as [v|l]; [|discriminate].
        destruct v; try (injection K as <-; apply (fg_macro_new ms o a x {| b_params := [VStr n]; b_star := st; b_kwonly := [] |} n f); [exact E4|exact B|reflexivity|exact D|exact Fx|discriminate]).
        injection K as <-. apply (fg_macro_same ms o a x {| b_params := [VStr n]; b_star := st; b_kwonly := [] |} n); [exact E4|exact B|reflexivity|]. right. now exists f.
      + injection K as <-. apply (fg_macro_same ms o a x {| b_params := [VStr n]; b_star := st; b_kwonly := [] |} n); [exact E4|exact B|reflexivity|]. now left.
    - intros K. destruct K as [b l y E|b k y E|b k l z y E|b c d t E|b n E B Q H|b n f y E B Q D Hf Hy]; try (rewrite E4 in E; discriminate E).
      all: rewrite (proj2 (bind_iff _ _ _ _) B); cbn [rbind]; destruct (bound_length _ _ _ _ B) as [L1 L2]; destruct b as [ps st kw]; cbn [b_params b_kwonly] in *; change (length (sg_params macro_def)) with 1 in L1; change (length (sg_kwonly macro_def)) with 0 in L2;
        (destruct ps as [|p [|]]; try discriminate); (destruct kw; [|discriminate]); change (SpecCalls.value_of macro_def {| b_params := [p]; b_star := st; b_kwonly := [] |} "macro_name") with p in Q; change (p1 {| b_params := [p]; b_star := st; b_kwonly := [] |}) with p; rewrite Q; cbn [s_arg rbind]; pose proof (find_defined ms n) as D'; destruct (find (fun m => str_eqb (fst m) n) ms) as [[n' g]|].
      + destruct D' as [-> D']. destruct H as [H|(f & D & Hf)]; [destruct D' as (p' & q & -> & _); elim H; rewrite map_app; apply in_or_app; right; now left|]. rewrite (defined_unique _ _ _ _ D' D). cbn [snd]. now rewrite Hf.
      + reflexivity.
      + destruct D' as [-> D']. rewrite (defined_unique _ _ _ _ D' D). cbn [snd]. rewrite Hf. cbn [rbind]. destruct y; try reflexivity. congruence.
      + elim D'. destruct D as (p' & q & -> & _). rewrite map_app. apply in_or_app. right. now left. }
  assert (N4 : at_name a <> t_ "macro") by (now apply str_eqb_neq in E4). split; [discriminate|]. intros K. destruct K; contradiction.
Qed.
Lemma calls_iff ms o l : forall x y, functions_give ms o l x y <-> run_functions attribute (fun a r _ => do z <- call_output ms o a r; Ok (z, z)) l x x = Ok (y, y).
Proof.
  induction l as [|a l IH]; intros x y; cbn [run_functions].
  - split; [intros K; inversion K; reflexivity|]. intros K. injection K as ->. constructor.
  - split.
    + intros K. inversion K as [|? ? ? z ? F G]; subst. apply call_iff in F. rewrite F. cbn [rbind]. now apply IH.
    + intros K. destruct (call_output ms o a x) as [z|] eqn:F; [|discriminate]. cbn [rbind] in K. apply call_iff in F. apply IH in K. now apply (fs_more ms o a l x z).
Qed.
Lemma vok_function ms o a x y : macros_ok ms -> vok (VDict (ot_attrs o)) -> vok (ot_name o) -> function_gives ms o a x y -> vok x -> vok y.
Proof.
  intros MK VA VN F V. destruct F as [b l y E B P S|b k y E B K P L|b k l z y E B K P N S L|b c d t E B C Q H|b n E B Q H|b n f y E B Q (p & q & -> & _) Hf Hy].
  - now apply (vok_selects _ _ _ _ S).
  - apply listed_iff in L. subst y. now apply vok_listed.
  - apply listed_iff in L. subst y. apply vok_listed. now apply (vok_selects _ _ _ _ S).
  - constructor.
    + unfold dwf, dkeys. cbn [map fst]. repeat (constructor; [intros I; repeat (destruct I as [I|I]; [discriminate I|]); destruct I|]). constructor.
    + constructor; [exact VN|]. constructor; [|constructor; [constructor|constructor]]. cbn [snd]. apply has_attr_iff in H. subst d. destruct (dget (ot_attrs o) (KS (t_ "description"))) as [d|] eqn:G; [|constructor]. apply dget_In in G. inversion VA as [| | | | | |? W F]; subst. rewrite Forall_forall in F. exact (F _ G).
  - exact V.
  - apply (MK n f x y); [apply in_or_app; right; now left|exact V|exact Hf].
Qed.
Lemma vok_functions ms o l x y : macros_ok ms -> vok (VDict (ot_attrs o)) -> vok (ot_name o) -> functions_give ms o l x y -> vok x -> vok y.
Proof. intros MK VA VN F. induction F as [x|a l x y z F G IH]; intros V; [exact V|]. apply IH. now apply (vok_function ms o a x). Qed.
(** ** formatters *)
Lemma key_iff v k : (if truthy v then s_arg v else Ok []) = Ok k <-> key_or_none v k.
Proof.
  destruct (truthy v) eqn:T.
  - split; [intros K; destruct v; try discriminate K; assert (k = s) as -> by (cbn [s_arg] in K; congruence); constructor|]. intros K. inversion K; subst; [reflexivity|congruence].
  - split; [intros K; assert (k = []) as -> by congruence; now constructor|]. intros K. inversion K; subst; [|reflexivity]. destruct k; [reflexivity|discriminate T].
Qed.
Lemma header_iff v k : header_key v = Ok k <-> as_key v k.
Proof. destruct v; cbn [header_key]; split; intros K; try discriminate K; try (inversion K; fail); try (assert (K' := K); clear K; inversion K'; subst; constructor); inversion K; subst; reflexivity. Qed.
Lemma headers_given_iff v l : (if truthy v then match v with VList l => rmap header_key l | _ => out_of_model end else Ok []) = Ok l <-> headers_given v l.
Proof.
  destruct (truthy v) eqn:T.
  - destruct v; try (split; [discriminate|intros K; inversion K; subst; congruence]). rewrite rmap_ok. split.
    + intros F. constructor. eapply Forall2_imp; [|exact F]. intros; now apply header_iff.
    + intros K. inversion K as [? ? F|? F]; subst; [|congruence]. eapply Forall2_imp; [|exact F]. intros; now apply header_iff.
  - split; [intros K; assert (l = []) as -> by congruence; now constructor|]. intros K. inversion K as [? ? F|]; subst; [|reflexivity]. destruct vs; [|discriminate T]. now inversion F.
Qed.
Lemma given {A} (x : option val) (f : val -> res A) d : (match x with Some v => f v | None => f d end) = f (match x with Some v => v | None => d end).
Proof. now destruct x. Qed.
Theorem table_is_iff o data hs rows : vok data -> (table_of o data = Ok (hs, rows) <-> table_is o data hs rows).
Proof.
  intros V. unfold table_of, attr_of.
  set (p := match dget (ot_attrs o) (KS $"path") with Some v => v | None => VNone end). set (k := match dget (ot_attrs o) (KS $"key") with Some v => v | None => VNone end). set (h := match dget (ot_attrs o) (KS $"headers") with Some v => v | None => VNone end).
  replace (match dget (ot_attrs o) (KS $"path") with Some v => if truthy v then path_arg v else Ok [] | None => Ok [] end) with (if truthy p then path_arg p else Ok []) by (unfold p; now destruct (dget _ (KS $"path"))).
  replace (match dget (ot_attrs o) (KS $"key") with Some v => if truthy v then s_arg v else Ok [] | None => Ok [] end) with (if truthy k then s_arg k else Ok []) by (unfold k; now destruct (dget _ (KS $"key"))).
  replace (match dget (ot_attrs o) (KS $"headers") with Some v => if truthy v then match v with VList l => rmap header_key l | _ => out_of_model end else Ok [] | None => Ok [] end) with (if truthy h then match h with VList l => rmap header_key l | _ => out_of_model end else Ok []) by (unfold h; now destruct (dget _ (KS $"headers"))).
  replace (match dget (ot_attrs o) (KS $"strict") with Some v => truthy v | None => true end) with (truthy (match dget (ot_attrs o) (KS $"strict") with Some v => v | None => VBool true end)) by (now destruct (dget _ (KS $"strict"))).
  set (m := match dget (ot_attrs o) (KS $"missing") with Some v => v | None => VStr [] end). set (s := match dget (ot_attrs o) (KS $"strict") with Some v => v | None => VBool true end).
  unfold table_is. split.
  - intros K. destruct (if truthy p then path_arg p else Ok []) as [pl|] eqn:Ep; [|discriminate]. cbn [rbind] in K. destruct (if truthy k then s_arg k else Ok []) as [ks|] eqn:Ek; [|discriminate]. cbn [rbind] in K.
    destruct (if truthy h then _ else _) as [hl|] eqn:Eh; [|discriminate]. cbn [rbind] in K. exists p, pl, k, ks, h, hl, m, s.
    split; [now apply has_attr_iff|]. split; [now apply way_none_iff|]. split; [now apply has_attr_iff|]. split; [now apply key_iff|]. split; [now apply has_attr_iff|]. split; [now apply headers_given_iff|]. split; [now apply has_attr_iff|]. split; [now apply has_attr_iff|]. now apply table_iff.
  - intros (p' & pl & k' & ks & h' & hl & m' & s' & H1 & H2 & H3 & H4 & H5 & H6 & H7 & H8 & T). apply has_attr_iff in H1, H3, H5, H7, H8. change (p' = p) in H1. change (k' = k) in H3. change (h' = h) in H5. change (m' = m) in H7. change (s' = s) in H8. rewrite H1 in H2. rewrite H3 in H4. rewrite H5 in H6. rewrite H7, H8 in T.
    apply way_none_iff in H2. rewrite H2. cbn [rbind]. apply key_iff in H4. rewrite H4. cbn [rbind]. apply headers_given_iff in H6. rewrite H6. cbn [rbind]. now apply table_iff.
Qed.
Lemma braces_iff s : has_brace s = false <-> no_braces s.
Proof.
  unfold has_brace, no_braces. split.
  - intros K. assert (G : forall c, In c s -> in_chars $"{}" c = false). { intros c I. destruct (in_chars $"{}" c) eqn:E; [|reflexivity]. assert (X : existsb (fun c => in_chars $"{}" c) s = true) by (apply existsb_exists; eauto). congruence. }
    split; intros I; apply G in I; discriminate I.
  - intros [H1 H2]. destruct (existsb _ s) eqn:E; [|reflexivity]. apply existsb_exists in E as (c & I & E). apply in_chars_iff in E as [<-|[<-|[]]]; contradiction.
Qed.
Lemma text_attr_iff o n d s : text_attr o (t_ n) d = Ok s -> no_braces d -> has_attr o n (VStr d) (VStr s) /\ no_braces s.
Proof.
  unfold text_attr, attr_of. intros K D. destruct (dget (ot_attrs o) (KS (t_ n))) as [v|] eqn:E.
  - destruct v as [| | |x| | |]; try discriminate. destruct (has_brace x) eqn:B; [discriminate|]. assert (x = s) as -> by congruence. split; [now apply ha_given|now apply braces_iff].
  - assert (d = s) as -> by congruence. split; [now apply ha_default|exact D].
Qed.
Lemma text_attr_ok o n d s : has_attr o n (VStr d) (VStr s) -> no_braces s -> text_attr o (t_ n) d = Ok s.
Proof.
  intros H B. apply has_attr_iff in H. unfold text_attr, attr_of. destruct (dget (ot_attrs o) (KS (t_ n))) as [v|]; [|congruence]. subst v. apply braces_iff in B. now rewrite B.
Qed.
Lemma csv_line_row sep q cells : csv_line sep q cells = csv_row sep q cells.
Proof.
  unfold csv_line, csv_row, quoted_row. destruct cells as [|c cells]; [reflexivity|]. revert c. induction cells as [|d cells IH]; intros c; [cbn [join map]; now rewrite <- ?app_assoc|].
  change (join (q ++ sep ++ q) (c :: d :: cells)) with (c ++ (q ++ sep ++ q) ++ join (q ++ sep ++ q) (d :: cells)). change (map (fun c => q ++ c ++ q) (c :: d :: cells)) with ((q ++ c ++ q) :: map (fun c => q ++ c ++ q) (d :: cells)).
  change (join sep ((q ++ c ++ q) :: map (fun c => q ++ c ++ q) (d :: cells))) with ((q ++ c ++ q) ++ sep ++ join sep (map (fun c => q ++ c ++ q) (d :: cells))). rewrite <- (IH d). rewrite <- !app_assoc. reflexivity.
Qed.
Lemma lines_join sep q rows : forall acc, fold_left (fun acc row => acc ++ nl :: csv_line sep q (map py_str row)) rows acc = join [chr 10] (acc :: map (fun r => csv_row sep q (map py_str r)) rows).
Proof.
  induction rows as [|r rows IH]; intros acc; [reflexivity|]. cbn [fold_left]. rewrite IH. rewrite csv_line_row. cbn [map]. generalize (csv_row sep q (map py_str r)). intros l. generalize (map (fun r => csv_row sep q (map py_str r)) rows). intros ls.
  change (join [chr 10] (acc :: l :: ls)) with (acc ++ [chr 10] ++ join [chr 10] (l :: ls)). destruct ls as [|x ls]; [reflexivity|]. change (join [chr 10] ((acc ++ nl :: l) :: x :: ls)) with ((acc ++ nl :: l) ++ [chr 10] ++ join [chr 10] (x :: ls)). change (join [chr 10] (l :: x :: ls)) with (l ++ [chr 10] ++ join [chr 10] (x :: ls)). rewrite <- !app_assoc. reflexivity.
Qed.
Lemma str_keys_iff ks : forall names, Outputs.str_keys ks = Ok names <-> ks = map KS names.
Proof.
  induction ks as [|k ks IH]; intros names; cbn [Outputs.str_keys].
  - split; [intros K; injection K as <-; reflexivity|]. intros K. destruct names; [reflexivity|discriminate].
  - destruct k as [s|z|]; try (split; [discriminate|intros K; destruct names; discriminate]). split.
    + intros K. destruct (Outputs.str_keys ks) as [r|]; [|discriminate]. cbn [rbind] in K. injection K as <-. cbn [map]. f_equal. now apply IH.
    + intros K. destruct names as [|n names]; [discriminate|]. cbn [map] in K. injection K as -> ->. rewrite (proj2 (IH names) eq_refl). reflexivity.
Qed.
Lemma sep_plain : no_braces $",".
Proof. now apply braces_iff. Qed.
Lemma quote_plain : no_braces [dquote].
Proof. now apply braces_iff. Qed.
Theorem csv_iff o x y : vok x -> (csv_of o x = Ok y <-> formats_to o $"csv" x y).
Proof.
  intros V. unfold csv_of. split.
  - intros K. destruct (table_of o x) as [[hs rows]|] eqn:T; [|discriminate]. cbn [rbind] in K. apply table_is_iff in T; [|exact V]. destruct (text_attr o $"sep" $",") as [sep|] eqn:Es; [|discriminate]. cbn [rbind] in K. destruct (text_attr o $"quote" [dquote]) as [q|] eqn:Eq; [|discriminate]. cbn [rbind] in K.
    apply (text_attr_iff o "sep") in Es as [S1 S2]; [|exact sep_plain]. apply (text_attr_iff o "quote") in Eq as [Q1 Q2]; [|exact quote_plain]. unfold csv_text in K. cbn [fst snd] in K. destruct (Outputs.str_keys hs) as [names|] eqn:En; [|discriminate]. cbn [rbind] in K. apply str_keys_iff in En. subst hs. rewrite csv_line_row, lines_join in K.
    match type of K with Ok ?z = _ => assert (y = z) as -> by congruence end. now apply ft_csv.
  - intros K. inversion K as [E|t E|hs rows E|names rows sep q E T S1 S2 Q1 Q2|U]; subst; try discriminate E.
    + apply table_is_iff in T; [|exact V]. rewrite T. cbn [rbind]. change ($"sep") with (t_ "sep"). change ($"quote") with (t_ "quote"). rewrite (text_attr_ok o "sep" $"," sep S1 S2). cbn [rbind]. rewrite (text_attr_ok o "quote" [dquote] q Q1 Q2). cbn [rbind]. unfold csv_text. cbn [fst snd]. rewrite (proj2 (str_keys_iff _ names) eq_refl). cbn [rbind]. now rewrite csv_line_row, lines_join.
    + exfalso. apply U. now left.
Qed.
Definition apply_format (f : option (val -> res val)) (x : val) : res val := match f with Some g => g x | None => Ok x end.
Lemma no_key_iff o : no_key o <-> forall f, attr_of o $"format" = Some (VStr f) -> in_strs f [$"table"; $"csv"] = true -> has_key o = false.
Proof.
  unfold no_key, attr_of, has_key. change (t_ "format") with $"format". change (t_ "key") with $"key". split.
  - intros H f E I. unfold attr_of. destruct (dget (ot_attrs o) (KS $"key")) as [v|] eqn:G; [|reflexivity]. apply (H f v E); [|reflexivity]. apply in_strs_b in I. exact I.
  - intros H f v E I G. specialize (H f E). unfold attr_of in H. rewrite G in H. apply H. apply in_strs_b. exact I.
Qed.
Theorem format_iff o keep x y : vok x -> (apply_format (format_of o keep) x = Ok y <-> formatted o x y /\ (keep = true -> no_key o)).
Proof.
  intros V. rewrite no_key_iff. unfold format_of. destruct (attr_of o $"format") as [f|] eqn:A.
  2:{ cbn [apply_format]. split.
    - intros K. assert (y = x) as -> by congruence. split; [apply fo_unnamed; [|reflexivity]|discriminate]. intros v E. unfold attr_of in A. change (t_ "format") with $"format" in E. congruence.
    - intros [K _]. destruct K as [f E|_ ->]; [|reflexivity]. unfold attr_of in A. change (t_ "format") with $"format" in E. congruence. }
  assert (Af : dget (ot_attrs o) (KS (t_ "format")) = Some f) by exact A.
  destruct f as [|b|z|f|l|d|n];
  try (cbn [apply_format]; split; [intros K; assert (y = x) as -> by congruence; split; [apply fo_unnamed; [|reflexivity]; intros v E; assert (v = _) by (rewrite Af in E; injection E as E; symmetry; exact E); subst; eauto 6|intros _ f' E'; discriminate E']|intros [K _]; destruct K as [f' E|_ ->]; [congruence|reflexivity]]);
  try (cbn [apply_format]; split; [discriminate|intros [K _]; destruct K as [f' E|E _]; [congruence|]; destruct (E _ Af) as [Z|[[? Z]|[[? Z]|[? Z]]]]; discriminate Z]).
  assert (Fm : formatted o x y <-> formats_to o f x y).
  { split; [|intros K; now apply (fo_named o x y f)]. intros K. destruct K as [f' E K|E _]; [rewrite Af in E; assert (f' = f) as -> by congruence; exact K|]. destruct (E _ Af) as [Z|[[? Z]|[[? Z]|[? Z]]]]; discriminate Z. }
  rewrite Fm. clear Fm.
  assert (Gk : (keep = true -> forall f0, Some (VStr f) = Some (VStr f0) -> in_strs f0 [$"table"; $"csv"] = true -> has_key o = false) <-> (in_strs f [$"table"; $"csv"] = true -> (keep && has_key o)%bool = false)).
  { split; [intros H I; destruct keep; [cbn [andb]; apply (H eq_refl f eq_refl I)|reflexivity]|]. intros H -> f0 E I. assert (f0 = f) as -> by congruence. exact (H I). }
  rewrite Gk. clear Gk. destruct (str_eqb f $"raw") eqn:E1.
  { apply str_eqb_eq in E1. subst f. cbn [apply_format]. split; [intros K; assert (y = x) as -> by congruence; split; [now apply ft_raw|discriminate]|]. intros [K _]. inversion K as [E|t E|hs rows E|names rows sep q E|U]; subst; try discriminate E; try reflexivity. }
  assert (N1 : f <> $"raw") by (now apply str_eqb_neq in E1). destruct (str_eqb f $"json") eqn:E2.
  { apply str_eqb_eq in E2. subst f. cbn [apply_format]. unfold json_formatter. split.
    - intros K. destruct (json_dumps 0 x) as [t|] eqn:D; [|discriminate]. cbn [rbind] in K. assert (y = VStr t) as -> by congruence. split; [|discriminate]. apply ft_json; [reflexivity|]. now apply (dumps_iff x V).
    - intros [K _]. inversion K as [E|t E P|hs rows E|names rows sep q E|U]; subst; try discriminate E.
      + apply (dumps_iff x V) in P. rewrite P. reflexivity.
      + exfalso. apply U. do 3 right. now left. }
  assert (N2 : f <> $"json") by (now apply str_eqb_neq in E2). destruct (in_strs f [$"table"; $"csv"]) eqn:E3.
  { destruct (keep && has_key o)%bool eqn:Kk.
    - cbn [apply_format]. split; [discriminate|]. intros [_ K]. discriminate (K eq_refl).
    - apply in_strs_In in E3 as [<-|[<-|[]]].
      + change (str_eqb $"table" $"table") with true. cbv iota. cbn [apply_format]. split.
        * intros K. destruct (table_of o x) as [[hs rows]|] eqn:T; [|discriminate]. cbn [rbind fst snd] in K. apply table_is_iff in T; [|exact V]. match type of K with Ok ?z = _ => assert (y = z) as -> by congruence end. split; [|reflexivity].
          rewrite (map_ext _ _ value_key). now apply ft_table.
        * intros [K _]. inversion K as [E|t E|hs rows E T|names rows sep q E|U]; subst; try discriminate E; [|exfalso; apply U; do 7 right; now left]. apply table_is_iff in T; [|exact V]. rewrite T. cbn [rbind fst snd]. now rewrite (map_ext _ _ value_key).
      + change (str_eqb $"csv" $"table") with false. cbv iota. cbn [apply_format]. rewrite (csv_iff o x y V). split; [intros K; split; [exact K|reflexivity]|now intros [K _]]. }
  assert (N3 : f <> $"table" /\ f <> $"csv") by (split; intros ->; discriminate E3). destruct N3 as [N3 N4]. destruct (in_strs f formatter_names) eqn:E4.
  { cbn [apply_format]. split; [discriminate|]. intros [K _]. inversion K as [E|t E|hs rows E|names rows sep q E|U]; subst; try contradiction. exfalso. apply U. apply in_strs_b in E4. exact E4. }
  cbn [apply_format]. split.
  - intros K. assert (y = x) as -> by congruence. split; [|discriminate]. apply ft_unknown. intros U. apply in_strs_b in U. change (in_strs f formatter_names = true) in U. congruence.
  - intros [K _]. inversion K as [E|t E|hs rows E|names rows sep q E|U]; subst; try contradiction. reflexivity.
Qed.
