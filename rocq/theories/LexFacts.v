(** * LexFacts: the words of a text are those of the grammar (for C120). *)
From Coq Require Import Lia.
From Verif Require Import PyBase DictFacts StrFacts CharFacts EscapeFacts Attributes SpecAttr.
Local Open Scope string_scope.
Local Open Scope list_scope.

Lemma btw a b c : between a b c = true <-> (a <= code c <= b)%N.
Proof. unfold between. rewrite Bool.andb_true_iff, !N.leb_le. tauto. Qed.
Lemma btw_f a b c : between a b c = false <-> ~ (a <= code c <= b)%N.
Proof. rewrite <- btw. destruct (between a b c); split; intros; congruence || auto. Qed.
Lemma eqb_f (a b : ascii) : a <> b -> Ascii.eqb a b = false.
Proof. apply Ascii.eqb_neq. Qed.

(** ** string literals *)
Lemma one_escape_in e x : one_escape e = Some x <-> In (e, x) escapes.
Proof.
  split.
  - unfold one_escape.
    repeat match goal with |- context [Ascii.eqb e ?c] => destruct (Ascii.eqb_spec e c) as [->|?]; cbn [orb] end; intros H; injection H as <- || discriminate H; cbn; tauto.
  - intros H. cbn in H. repeat (destruct H as [H|H]; [injection H as <- <-; reflexivity|]). destruct H.
Qed.
Lemma one_escape_none e : one_escape e = None <-> ~ In e (map fst escapes).
Proof.
  split.
  - intros H K. apply in_map_iff in K. destruct K as ((e', x) & E & K). cbn [fst] in E. subst e'. apply one_escape_in in K. congruence.
  - intros H. destruct (one_escape e) as [x|] eqn:E; [|reflexivity]. exfalso. apply H. apply one_escape_in in E. now apply (in_map fst) in E.
Qed.
Lemma octs c : oct c = true <-> octal_digit c.
Proof. apply btw. Qed.
Lemma octs_f c : oct c = false <-> ~ octal_digit c.
Proof. apply btw_f. Qed.
Lemma hexval_in c n : hexval c = Some n <-> hex_digit c n.
Proof.
  unfold hexval, is_dec. split.
  - destruct (between 48 57 c) eqn:E1; [intros H; injection H as <-; constructor; now apply btw|].
    destruct (between 97 102 c) eqn:E2; [intros H; injection H as <-; apply btw in E2; replace (code c - 87)%N with (code c - 97 + 10)%N by lia; now apply hex_low|].
    destruct (between 65 70 c) eqn:E3; [intros H; injection H as <-; apply btw in E3; replace (code c - 55)%N with (code c - 65 + 10)%N by lia; now apply hex_up|discriminate].
  - intros H. destruct H as [c H|c H|c H].
    + apply btw in H. now rewrite H.
    + rewrite (proj2 (btw_f 48 57 c)) by lia. rewrite (proj2 (btw 97 102 c)) by lia. f_equal. lia.
    + rewrite (proj2 (btw_f 48 57 c)) by lia. rewrite (proj2 (btw_f 97 102 c)) by lia. rewrite (proj2 (btw 65 70 c)) by lia. f_equal. lia.
Qed.

Definition keeps (c : str) (r : option (str * str)) : option (str * str) := match r with Some (a, b) => Some (c ++ a, b) | None => None end.
Lemma keeps_some c r v u : keeps c r = Some (v, u) <-> exists a, r = Some (a, u) /\ v = c ++ a.
Proof. unfold keeps. destruct r as [[a b]|]; split; intros H; try discriminate; [injection H as <- <-; eauto|destruct H as (? & H & ->); now injection H as -> ->|destruct H as (? & H & _); discriminate]. Qed.
Lemma string_lit_eq f raw q s : string_lit (S f) raw q s =
    match s with
    | [] => None
    | c :: t =>
        if Ascii.eqb c q then Some ([], t)
        else if Ascii.eqb c nl then None
        else if negb (Ascii.eqb c "\") then keeps [c] (string_lit f raw q t)
        else match t with
             | [] => None
             | e :: t1 =>
                 if raw then keeps [c; e] (string_lit f raw q t1)
                 else match one_escape e with
                 | Some x => keeps [x] (string_lit f raw q t1)
                 | None =>
                     if oct e then
                       match t1 with
                       | d1 :: t2 =>
                           if oct d1 then
                             match t2 with
                             | d2 :: t3 =>
                                 if oct d2 then
                                   let n := ((code e - 48) * 64 + (code d1 - 48) * 8 + (code d2 - 48))%N in
                                   if N.leb n 255 then keeps [chr n] (string_lit f raw q t3) else None
                                 else keeps [chr ((code e - 48) * 8 + (code d1 - 48))%N] (string_lit f raw q t2)
                             | [] => None
                             end
                           else keeps [chr (code e - 48)%N] (string_lit f raw q t1)
                       | [] => None
                       end
                     else if Ascii.eqb e "x" then
                       match t1 with
                       | h1 :: h2 :: t3 =>
                           match hexval h1, hexval h2 with
                           | Some a, Some b => keeps [chr (a * 16 + b)%N] (string_lit f raw q t3)
                           | _, _ => None
                           end
                       | _ => None
                       end
                     else if (Ascii.eqb e "N" || Ascii.eqb e "u" || Ascii.eqb e "U" || Ascii.eqb e nl)%bool then None
                     else keeps [c; e] (string_lit f raw q t1)
                 end
             end
    end.
Proof. reflexivity. Qed.

Lemma quote_not_octal q : a_quote q -> ~ octal_digit q.
Proof. intros [->| ->]; unfold octal_digit; cbn; lia. Qed.

(** what is read is in the grammar *)
Lemma string_sound raw q : a_quote q -> forall f s v r, string_lit f raw q s = Some (v, r) -> exists b, s = b ++ q :: r /\ text_of raw q b v.
Proof.
  intros Hq. induction f as [|f IH]; [discriminate|]. intros s v r H. rewrite string_lit_eq in H.
  destruct s as [|c t]; [discriminate|].
  destruct (Ascii.eqb_spec c q) as [->|Hcq].
  { injection H as <- <-. exists []. split; [reflexivity|constructor]. }
  destruct (Ascii.eqb_spec c nl) as [->|Hnl]; [discriminate|].
  destruct (Ascii.eqb_spec c "\") as [->|Hb]; cbn [negb] in H.
  2: { apply keeps_some in H. destruct H as (a & Ha & ->). apply IH in Ha. destruct Ha as (b & -> & Hb'). exists (c :: b). split; [reflexivity|]. now constructor. }
  destruct t as [|e t]; [discriminate|].
  destruct raw.
  { apply keeps_some in H. destruct H as (a & Ha & ->). apply IH in Ha. destruct Ha as (b & -> & Hb'). exists ("\"%char :: e :: b). split; [reflexivity|]. now apply to_raw. }
  destruct (one_escape e) as [x|] eqn:Ee.
  { apply keeps_some in H. destruct H as (a & Ha & ->). apply IH in Ha. destruct Ha as (b & -> & Hb'). exists ("\"%char :: e :: b). split; [reflexivity|]. apply to_escape; [reflexivity|now apply one_escape_in|exact Hb']. }
  destruct (oct e) eqn:Eo.
  { apply octs in Eo. destruct t as [|d1 t2]; [discriminate|]. destruct (oct d1) eqn:E1.
    - apply octs in E1. destruct t2 as [|d2 t3]; [discriminate|]. destruct (oct d2) eqn:E2.
      + apply octs in E2. cbv zeta in H. destruct (N.leb_spec ((code e - 48) * 64 + (code d1 - 48) * 8 + (code d2 - 48))%N 255) as [L|L]; [|discriminate].
        apply keeps_some in H. destruct H as (a & Ha & ->). apply IH in Ha. destruct Ha as (b & -> & Hb').
        exists ("\"%char :: [e; d1; d2] ++ b). split; [reflexivity|].
        assert (En : number 8 (digits [e; d1; d2]) = ((code e - 48) * 64 + (code d1 - 48) * 8 + (code d2 - 48))%N) by (unfold number, digits; cbn [map fold_left]; lia).
        cbn [app]. rewrite <- En. apply (to_octal false q [e; d1; d2]); [reflexivity|cbn; lia|repeat (apply Forall_cons; [assumption|]); constructor|cbn; lia|rewrite En; exact L|exact Hb'].
      + apply keeps_some in H. destruct H as (a & Ha & ->). apply IH in Ha. destruct Ha as (b & E & Hb').
        exists ("\"%char :: [e; d1] ++ b). split; [cbn [app]; now rewrite E|].
        assert (En : number 8 (digits [e; d1]) = ((code e - 48) * 8 + (code d1 - 48))%N) by (unfold number, digits; cbn [map fold_left]; lia).
        cbn [app]. rewrite <- En. apply (to_octal false q [e; d1]); [reflexivity|cbn; lia|repeat (apply Forall_cons; [assumption|]); constructor| | |exact Hb'].
        * intros _ c u ->. cbn [app] in E. injection E as -> _. now apply octs_f.
        * rewrite En. unfold octal_digit in *. lia.
    - apply keeps_some in H. destruct H as (a & Ha & ->). apply IH in Ha. destruct Ha as (b & E & Hb').
      exists ("\"%char :: [e] ++ b). split; [cbn [app]; now rewrite E|].
      assert (En : number 8 (digits [e]) = (code e - 48)%N) by (unfold number, digits; cbn [map fold_left]; lia).
      cbn [app]. rewrite <- En. apply (to_octal false q [e]); [reflexivity|cbn; lia|repeat (apply Forall_cons; [assumption|]); constructor| | |exact Hb'].
      * intros _ c u ->. cbn [app] in E. injection E as -> _. now apply octs_f.
      * rewrite En. unfold octal_digit in *. lia. }
  destruct (Ascii.eqb_spec e "x") as [->|Hx].
  { destruct t as [|h1 [|h2 t3]]; try discriminate. destruct (hexval h1) as [n1|] eqn:E1; [|discriminate]. destruct (hexval h2) as [n2|] eqn:E2; [|discriminate].
    apply keeps_some in H. destruct H as (a & Ha & ->). apply IH in Ha. destruct Ha as (b & -> & Hb'). exists ("\"%char :: "x"%char :: h1 :: h2 :: b). split; [reflexivity|].
    assert (En : number 16 [n1; n2] = (n1 * 16 + n2)%N) by (unfold number; cbn [fold_left]; lia). cbn [app]. rewrite <- En. apply to_hex; [reflexivity|now apply hexval_in|now apply hexval_in|exact Hb']. }
  destruct (Ascii.eqb_spec e "N") as [->|HN]; [discriminate|]. destruct (Ascii.eqb_spec e "u") as [->|Hu]; [discriminate|]. destruct (Ascii.eqb_spec e "U") as [->|HU]; [discriminate|].
  destruct (Ascii.eqb_spec e nl) as [->|Hn]; [discriminate|]. cbn [orb] in H.
  apply keeps_some in H. destruct H as (a & Ha & ->). apply IH in Ha. destruct Ha as (b & -> & Hb'). exists ("\"%char :: e :: b). split; [reflexivity|].
  apply to_other; [reflexivity|now apply one_escape_none|now apply octs_f| |exact Hn|exact Hb'].
  cbn. intros K. repeat (destruct K as [K|K]; [congruence|]). exact K.
Qed.

(** what is in the grammar is read *)
Lemma bs_eq : Ascii.eqb backslash "\" = true. Proof. reflexivity. Qed.
Lemma quote_bs q : a_quote q -> Ascii.eqb backslash q = false.
Proof. intros [->| ->]; reflexivity. Qed.
Lemma oct_not_escape e : octal_digit e -> one_escape e = None.
Proof.
  intros H. apply one_escape_none. intros K. unfold octal_digit in H. cbn in K.
  repeat (destruct K as [K|K]; [subst e; cbn in H; lia|]). exact K.
Qed.
Lemma string_complete raw q b v r : a_quote q -> text_of raw q b v -> forall f, length b < f -> string_lit f raw q (b ++ q :: r) = Some (v, r).
Proof.
  intros Hq H. induction H as [|c b v H1 H2 H3 H IH|e b v Hr H IH|e x b v Hr He H IH|ds b v Hr Hl Hd Hn Hv H IH|h1 h2 n1 n2 b v Hr Hh1 Hh2 H IH|e b v Hr He Ho Hx Hnl H IH];
    intros f Hf; (destruct f as [|f]; [lia|]); rewrite string_lit_eq; cbn [app length] in *.
  - now rewrite Ascii.eqb_refl.
  - rewrite (eqb_f _ _ H1), (eqb_f c nl H2), (eqb_f c "\" H3). cbn [negb]. rewrite IH by lia. reflexivity.
  - rewrite (quote_bs q Hq). change (Ascii.eqb backslash nl) with false. rewrite bs_eq. cbn [negb]. rewrite Hr. rewrite Hr in IH. rewrite IH by lia. reflexivity.
  - rewrite (quote_bs q Hq). change (Ascii.eqb backslash nl) with false. rewrite bs_eq. cbn [negb]. rewrite Hr in *. apply one_escape_in in He. rewrite He. rewrite IH by lia. reflexivity.
  - rewrite (quote_bs q Hq). change (Ascii.eqb backslash nl) with false. rewrite bs_eq. cbn [negb]. rewrite Hr in *. rewrite app_length in Hf.
    destruct ds as [|e [|d1 [|d2 [|d3 ds]]]]; cbn [length] in *; try lia; cbn [app].
    + assert (He : octal_digit e) by now inversion Hd. rewrite (oct_not_escape e He). apply octs in He. rewrite He.
      assert (En : number 8 (digits [e]) = (code e - 48)%N) by (unfold number, digits; cbn [map fold_left]; lia). rewrite En.
      assert (Hne : match b ++ q :: r with d1 :: _ => oct d1 = false | [] => True end).
      { destruct b as [|d b]; cbn [app]; apply octs_f; [now apply quote_not_octal|]. apply (Hn ltac:(lia) d b eq_refl). }
      specialize (IH f ltac:(lia)). destruct (b ++ q :: r) as [|d t] eqn:Eb; [now destruct b|]. rewrite Hne, IH. reflexivity.
    + assert (He : octal_digit e) by now inversion Hd. assert (Hd1 : octal_digit d1) by (inversion Hd as [|? ? _ Hd']; now inversion Hd'). rewrite (oct_not_escape e He). apply octs in He, Hd1. rewrite He, Hd1.
      assert (En : number 8 (digits [e; d1]) = ((code e - 48) * 8 + (code d1 - 48))%N) by (unfold number, digits; cbn [map fold_left]; lia). rewrite En.
      assert (Hne : match b ++ q :: r with d1 :: _ => oct d1 = false | [] => True end).
      { destruct b as [|d b]; cbn [app]; apply octs_f; [now apply quote_not_octal|]. apply (Hn ltac:(lia) d b eq_refl). }
      specialize (IH f ltac:(lia)). destruct (b ++ q :: r) as [|d t] eqn:Eb; [now destruct b|]. rewrite Hne, IH. reflexivity.
    + assert (He : octal_digit e) by now inversion Hd. inversion Hd as [|? ? _ Hd']; subst. inversion Hd' as [|? ? Hd1 Hd'']; subst. inversion Hd'' as [|? ? Hd2 _]; subst.
      rewrite (oct_not_escape e He). apply octs in He, Hd1, Hd2. rewrite He, Hd1, Hd2.
      assert (En : number 8 (digits [e; d1; d2]) = ((code e - 48) * 64 + (code d1 - 48) * 8 + (code d2 - 48))%N) by (unfold number, digits; cbn [map fold_left]; lia). rewrite En in *.
      cbv zeta. rewrite (proj2 (N.leb_le _ _) Hv). rewrite IH by lia. reflexivity.
  - rewrite (quote_bs q Hq). change (Ascii.eqb backslash nl) with false. rewrite bs_eq. cbn [negb]. rewrite Hr in *.
    change (one_escape "x") with (@None ascii). change (oct "x") with false. rewrite Ascii.eqb_refl.
    apply hexval_in in Hh1, Hh2. rewrite Hh1, Hh2. rewrite IH by lia.
    assert (En : number 16 [n1; n2] = (n1 * 16 + n2)%N) by (unfold number; cbn [fold_left]; lia). rewrite En. reflexivity.
  - rewrite (quote_bs q Hq). change (Ascii.eqb backslash nl) with false. rewrite bs_eq. cbn [negb]. rewrite Hr in *.
    apply one_escape_none in He. rewrite He. apply octs_f in Ho. rewrite Ho.
    assert (E : forall c, In c (list_ascii_of_string "xNuU") -> Ascii.eqb e c = false) by (intros c Hc; apply eqb_f; intros ->; now apply Hx).
    rewrite (E "x"%char) by (cbn; tauto). rewrite (E "N"%char) by (cbn; tauto). rewrite (E "u"%char) by (cbn; tauto). rewrite (E "U"%char) by (cbn; tauto). rewrite (eqb_f e nl Hnl). cbn [orb].
    rewrite IH by lia. reflexivity.
Qed.

(** after the opening quote *)
Lemma open_iff raw q s v r : a_quote q -> (open_string raw q s = Some (v, r) <-> exists b, s = b ++ q :: r /\ text_of raw q b v /\ (b = [] -> not_next (eq q) r)).
Proof.
  intros Hq. unfold open_string. split.
  - destruct (prefixb [q; q] s) eqn:Ep; [discriminate|]. intros H. apply (string_sound raw q Hq) in H. destruct H as (b & -> & Hb). exists b. split; [reflexivity|]. split; [exact Hb|].
    intros -> c t -> <-. cbn [app prefixb] in Ep. rewrite Ascii.eqb_refl in Ep. discriminate.
  - intros (b & -> & Hb & Hn).
    assert (Ep : prefixb [q; q] (b ++ q :: r) = false).
    { destruct b as [|c b]; cbn [app prefixb].
      - rewrite Ascii.eqb_refl. cbn [andb]. destruct r as [|c r]; [reflexivity|]. rewrite (eqb_f q c); [reflexivity|]. intros <-. now apply (Hn eq_refl q r eq_refl).
      - rewrite (eqb_f q c); [reflexivity|]. intros <-. inversion Hb; subst; try congruence; destruct Hq; discriminate. }
    rewrite Ep. apply (string_complete raw q b v r Hq Hb). rewrite app_length. cbn [length]. lia.
Qed.
