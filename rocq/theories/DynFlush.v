(** * DynFlush: saving a record whose path has dynamic items. *)
From Verif Require Import PyBase DictFacts Regex Tree Results SpecTree SpecRecords SpecPath PathDyn MachineFacts RunFacts.

(** the names of the dynamic items of a path *)
Definition dyn_names (ps : list pspec) : list str :=
  flat_map (fun p => match p with PStatic _ _ => [] | PDyn _ _ m _ _ _ => [m] end) ps.

(** what is remembered after a path was resolved: for each dynamic name the
    record's own value if it had one, otherwise what was remembered before *)
Lemma resolve_seen vars ps : forall record seen P r c,
  NoDup (dyn_names ps) -> dwf record ->
  resolve vars ps record seen = Ok (Some P, r, c) ->
  (forall m, dget c (KS m) = if in_strs m (dyn_names ps)
                            then match dget record (KS m) with Some v => Some v | None => dget seen (KS m) end
                            else dget seen (KS m)) /\
  (forall m, dget r (KS m) = if in_strs m (dyn_names ps) then None else dget record (KS m)).
Proof.
  induction ps as [|[s n|pre w1 m w2 post n] ps IH]; intros record seen P r c Hnd Hw H.
  - injection H as <- <- <-. split; reflexivity.
  - cbn [resolve] in H. destruct (resolve vars ps record seen) as [[[rest r1] c1]|] eqn:E; [|discriminate].
    cbn [rbind] in H. destruct rest as [rest|]; [|discriminate]. injection H as <- <- <-. eapply IH; eauto.
  - cbn [dyn_names flat_map app] in Hnd. fold (dyn_names ps) in Hnd. inversion Hnd as [|? ? Hni Hnd']; subst.
    assert (Hin : forall k, in_strs k (dyn_names (PDyn pre w1 m w2 post n :: ps)) = (str_eqb k m || in_strs k (dyn_names ps))%bool)
      by reflexivity.
    assert (Hnin : in_strs m (dyn_names ps) = false).
    { destruct (in_strs m (dyn_names ps)) eqn:E; [|reflexivity]. exfalso. apply Hni. unfold in_strs in E.
      apply existsb_exists in E as (x & Hx & E). apply str_eqb_eq in E. now subst. }
    cbn [resolve] in H. unfold look in H. destruct (dget record (KS m)) as [v|] eqn:Em.
    + destruct (resolve vars ps (ddel record (KS m)) (dset seen (KS m) v)) as [[[rest r1] c1]|] eqn:E; [|discriminate].
      cbn [rbind] in H. destruct rest as [rest|]; [|discriminate]. injection H as <- <- <-.
      destruct (IH _ _ _ _ _ Hnd' (dwf_ddel _ _ Hw) E) as [H1 H2]. split; intros k; rewrite Hin.
      * rewrite H1. destruct (str_eqb_spec k m) as [->|Hne]; cbn [orb].
        -- rewrite Hnin, dget_dset_same, Em. reflexivity.
        -- rewrite dget_dset_other by congruence. rewrite dget_ddel_other by congruence. reflexivity.
      * rewrite H2. destruct (str_eqb_spec k m) as [->|Hne]; cbn [orb].
        -- rewrite Hnin. now apply dget_ddel_same.
        -- rewrite dget_ddel_other by congruence. reflexivity.
    + assert (HC : forall rest r1 c1, resolve vars ps record seen = Ok (Some rest, r1, c1) ->
        (forall k, dget c1 (KS k) = if in_strs k (dyn_names (PDyn pre w1 m w2 post n :: ps))
          then match dget record (KS k) with Some v => Some v | None => dget seen (KS k) end else dget seen (KS k)) /\
        (forall k, dget r1 (KS k) = if in_strs k (dyn_names (PDyn pre w1 m w2 post n :: ps)) then None else dget record (KS k))).
      { intros rest r1 c1 E. destruct (IH _ _ _ _ _ Hnd' Hw E) as [H1 H2]. split; intros k; rewrite Hin.
        - rewrite H1. destruct (str_eqb_spec k m) as [->|Hne]; cbn [orb]; [|reflexivity]. now rewrite Hnin, Em.
        - rewrite H2. destruct (str_eqb_spec k m) as [->|Hne]; cbn [orb]; [|reflexivity]. now rewrite Hnin, Em. }
      destruct (dget seen (KS m)) as [sv|] eqn:Es.
      * destruct sv; try discriminate.
        destruct (resolve vars ps record seen) as [[[rest r1] c1]|] eqn:E; [|discriminate].
        cbn [rbind] in H. destruct rest as [rest|]; [|discriminate]. injection H as <- <- <-. apply (HC _ _ _ eq_refl).
      * destruct (dget vars (KS m)) as [vv|]; [|discriminate].
        destruct (resolve vars ps record seen) as [[[rest r1] c1]|] eqn:E; [|discriminate].
        cbn [rbind] in H. destruct rest as [rest|]; [|discriminate]. injection H as <- <- <-. apply (HC _ _ _ eq_refl).
Qed.

(** the keys of a resolved path *)
Lemma resolve_keys vars ps : forall record seen P r c,
  NoDup (dyn_names ps) -> dwf record ->
  resolve vars ps record seen = Ok (Some P, r, c) ->
  Forall2 (fun p k => match p with
     | PStatic s n => k = (s, n)
     | PDyn pre _ m _ post n =>
         exists v, k = (pre ++ py_str v ++ post, n) /\
           (dget record (KS m) = Some v \/
            dget record (KS m) = None /\ dget seen (KS m) = Some v \/
            dget record (KS m) = None /\ dget seen (KS m) = None /\ dget vars (KS m) = Some v)
     end) ps P.
Proof.
  induction ps as [|[s n|pre w1 m w2 post n] ps IH]; intros record seen P r c Hnd Hw H.
  - injection H as <- <- <-. constructor.
  - cbn [resolve] in H. destruct (resolve vars ps record seen) as [[[rest r1] c1]|] eqn:E; [|discriminate].
    cbn [rbind] in H. destruct rest as [rest|]; [|discriminate]. injection H as <- <- <-. constructor; [reflexivity|]. eapply IH; eauto.
  - cbn [dyn_names flat_map app] in Hnd. fold (dyn_names ps) in Hnd. inversion Hnd as [|? ? Hni Hnd']; subst.
    cbn [resolve] in H. unfold look in H. destruct (dget record (KS m)) as [v|] eqn:Em.
    + destruct (resolve vars ps (ddel record (KS m)) (dset seen (KS m) v)) as [[[rest r1] c1]|] eqn:E; [|discriminate].
      cbn [rbind] in H. destruct rest as [rest|]; [|discriminate]. injection H as <- <- <-.
      constructor; [exists v; auto|].
      pose proof (IH _ _ _ _ _ Hnd' (dwf_ddel _ _ Hw) E) as HF.
      assert (HM : Forall (fun p => match p with PStatic _ _ => True | PDyn _ _ m' _ _ _ => m' <> m end) ps).
      { rewrite Forall_forall. intros [|? ? m' ? ? ?] Hi; [exact I|]. intros ->. apply Hni.
        unfold dyn_names. apply in_flat_map. eexists. split; [exact Hi|]. left; reflexivity. }
      clear -HF HM. induction HF as [|p k ps ks Hp HF IHF]; constructor.
      * inversion HM as [|? ? Hm _]; subst. destruct p as [|? ? m' ? ? ?]; [exact Hp|].
        destruct Hp as (v' & Hk & Hv). exists v'. split; [exact Hk|].
        rewrite !dget_ddel_other, !dget_dset_other in Hv by congruence. exact Hv.
      * inversion HM; subst. auto.
    + destruct (dget seen (KS m)) as [sv|] eqn:Es.
      * destruct sv as [| | |sv| | |]; try discriminate.
        destruct (resolve vars ps record seen) as [[[rest r1] c1]|] eqn:E; [|discriminate].
        cbn [rbind] in H. destruct rest as [rest|]; [|discriminate]. injection H as <- <- <-.
        constructor; [exists (VStr sv); auto|]. eapply IH; eauto.
      * destruct (dget vars (KS m)) as [vv|] eqn:Ev; [|discriminate].
        destruct (resolve vars ps record seen) as [[[rest r1] c1]|] eqn:E; [|discriminate].
        cbn [rbind] in H. destruct rest as [rest|]; [|discriminate]. injection H as <- <- <-.
        constructor; [exists vv; auto 10|]. eapply IH; eauto.
Qed.

(** when nobody knows a name the record is discarded *)
Lemma resolve_unknown vars ps record seen m :
  In m (dyn_names ps) -> NoDup (dyn_names ps) -> dwf record ->
  dget record (KS m) = None -> dget seen (KS m) = None -> dget vars (KS m) = None ->
  forall P r c, resolve vars ps record seen <> Ok (Some P, r, c).
Proof.
  intros Hi Hnd Hw H1 H2 H3 P r c H. pose proof (resolve_keys _ _ _ _ _ _ _ Hnd Hw H) as HF.
  clear H Hnd. induction HF as [|p k ps ks Hp HF IH]; [contradiction|].
  unfold dyn_names in Hi. cbn [flat_map] in Hi. apply in_app_iff in Hi as [Hi|Hi]; [|now apply IH].
  destruct p as [|? ? m' ? ? ?]; [contradiction|]. destruct Hi as [<-|[]].
  destruct Hp as (v & _ & [Hv|[[_ Hv]|(_ & _ & Hv)]]); congruence.
Qed.

Section Flush.
Variable F : Type.
Variable runf : F -> fstate -> res (fstate * bool).
Variable k2i : bool.
Notation rstate := (rstate F).
Notation flush := (flush F runf k2i).

Theorem flush_dynamic s ps :
  let r := s_rec F s in
  let record := with_defaults (rc_result F r) (rc_defaults F r) in
  rc_mwl F r = false -> rc_funcs F r = [] -> rc_path F r = map render ps -> Forall pspec_ok ps -> ps <> [] ->
  dwf (rc_defaults F r) ->
  clean_dict record -> clean_dict (s_cache F s) -> clean_dict (e_vars (s_env F s)) ->
  match resolve (e_vars (s_env F s)) ps record (s_cache F s) with
  | Raise e => flush s = Raise e
  | Ok (None, _, c) => exists s', flush s = Ok s' /\ s_results F s' = s_results F s /\ s_cache F s' = c
  | Ok (Some P, rec', c) =>
      match save_cur k2i false (s_results F s) P (VDict rec') with
      | Ok v => exists s', flush s = Ok s' /\ s_results F s' = v /\ s_cache F s' = c
      | Raise e => flush s = Raise e
      end
  end.
Proof.
  intros r record Hm Hf Hp Hok Hne HD Hc1 Hc2 Hc3. unfold Results.flush, processgrp. fold r. rewrite Hm, Hf.
  cbn [rbind run_funcs fs_env fs_path fs_data fs_cache fs_results]. rewrite Hp.
  rewrite add_defaults_spec by exact HD. fold record.
  rewrite (form_path_resolve _ _ record (s_cache F s) Hok Hc1 Hc2 Hc3).
  destruct (resolve (e_vars (s_env F s)) ps record (s_cache F s)) as [[[op rec'] c]|e] eqn:E; [|reflexivity].
  cbn [rbind]. destruct op as [P|].
  - assert (HP : P <> []).
    { intros ->. destruct ps as [|p ps]; [congruence|]. clear -E. cbn [resolve] in E. destruct p as [s0 n|pre w1 m w2 post n].
      - destruct (resolve _ ps _ _) as [[[rest ?] ?]|]; [|discriminate]. cbn [rbind] in E. destruct rest; discriminate.
      - destruct (look _ _ _ _) as [v|v|v|].
        + destruct (resolve _ ps _ _) as [[[rest ?] ?]|]; [|discriminate]. cbn [rbind] in E. destruct rest; discriminate.
        + destruct v; try discriminate.
          destruct (resolve _ ps _ _) as [[[rest ?] ?]|]; [|discriminate]. cbn [rbind] in E. destruct rest; discriminate.
        + destruct (resolve _ ps _ _) as [[[rest ?] ?]|]; [|discriminate]. cbn [rbind] in E. destruct rest; discriminate.
        + discriminate. }
    destruct P as [|p P]; [congruence|]. cbn [rbind s_results].
    destruct (save_cur k2i false (s_results F s) (p :: P) (VDict rec')) as [v|e]; [|reflexivity].
    cbn [rbind]. eexists. split; [reflexivity|]. split; reflexivity.
  - cbn [rbind]. eexists. split; [reflexivity|]. split; reflexivity.
Qed.
End Flush.
