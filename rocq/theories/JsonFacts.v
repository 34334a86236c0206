(** * JsonFacts: json_loads reads exactly the texts of SpecFiles. *)
From Coq Require Import Lia.
From Verif Require Import PyBase Regex SpecRegex Template Attributes MatchVar Compile FuncTable Loaders Session Files SpecVariable SpecAttr SpecText SpecFiles.
From Verif Require Import StrFacts DictFacts SessionFacts MadeFacts CallFacts TextFacts LexFacts LexFacts2 EscapeFacts.
Local Open Scope string_scope.
Local Open Scope list_scope.

(** ** blanks *)
Definition jb (c : ascii) : Prop := In (code c) [32; 9; 10; 13]%N.
Lemma jspace_iff c : json_space c = true <-> jb c.
Proof.
  unfold jb. transitivity (existsb (N.eqb (code c)) [32; 9; 10; 13]%N = true).
  - assert (H : forall c, Bool.eqb (json_space c) (existsb (N.eqb (code c)) [32; 9; 10; 13]%N) = true) by (apply all256; vm_compute; reflexivity). specialize (H c). apply Bool.eqb_prop in H. now rewrite H.
  - rewrite existsb_exists. split; [intros (x & H & E); apply N.eqb_eq in E; now rewrite E|intros H; exists (code c); split; [exact H|apply N.eqb_refl]].
Qed.
Lemma jskip_is s : exists w, s = w ++ json_skip s /\ jblank w /\ not_next jb (json_skip s).
Proof.
  unfold json_skip. destruct (span_of json_space s) as [a b] eqn:E. apply span_spec in E. destruct E as (-> & A & B). exists a. repeat split.
  - eapply Forall_impl; [|exact A]. intros c. apply jspace_iff.
  - intros c t E K. apply (B c t E). now apply jspace_iff.
Qed.
Lemma jskip_to w s : jblank w -> not_next jb s -> json_skip (w ++ s) = s.
Proof.
  intros W N. unfold json_skip. rewrite (proj2 (span_spec json_space (w ++ s) w s)); [reflexivity|]. repeat split.
  - eapply Forall_impl; [|exact W]. intros c. apply jspace_iff.
  - intros c t E K. apply (N c t E). now apply jspace_iff.
Qed.
Lemma jskip_stay s : not_next jb s -> json_skip s = s. Proof. intros N. now apply (jskip_to [] s (Forall_nil _)). Qed.
Lemma jskip_over w s : jblank w -> json_skip (w ++ s) = json_skip s.
Proof. intros W. destruct (jskip_is s) as (a & E & A & N). rewrite E at 1. rewrite app_assoc. apply jskip_to; [now apply Forall_app|exact N]. Qed.
Lemma jskip_char c s : ~ jb c -> json_skip (c :: s) = c :: s.
Proof. intros N. apply jskip_stay. intros x t E. now injection E as <- <-. Qed.
Ltac njb := let K := fresh in intros K; cbn in K; intuition discriminate.

(** ** texts *)
Lemma jescape_in e x : json_escape e = Some x <-> In (e, x) jescapes.
Proof.
  split.
  - unfold json_escape. intros K.
    repeat match type of K with (if Ascii.eqb ?a ?b then _ else _) = _ => destruct (Ascii.eqb_spec a b) as [->|]; [injection K as <-; cbn; tauto|] end. discriminate.
  - intros I. cbn in I. repeat (destruct I as [I|I]; [injection I as <- <-; reflexivity|]). destruct I.
Qed.
Lemma jesc_u x : ~ In ("u"%char, x) jescapes.
Proof. intros I. apply jescape_in in I. discriminate. Qed.
Lemma jstring_sound : forall f s v r, json_string f s = Ok (v, r) -> exists b, s = b ++ chr 34 :: r /\ jtext b v.
Proof.
  induction f as [|f IH]; intros s v r K; [discriminate|]. cbn [json_string] in K. destruct s as [|c t]; [discriminate|].
  destruct (Ascii.eqb_spec c dquote) as [->|Nq]; [injection K as <- <-; exists []; split; [reflexivity|constructor]|].
  destruct (N.ltb_spec (code c) 32) as [|L]; [discriminate|].
  destruct (Ascii.eqb_spec c "\"%char) as [->|Nb].
  - destruct t as [|e t]; [discriminate|]. destruct (Ascii.eqb_spec e "u"%char) as [->|Nu].
    + destruct t as [|a [|b [|x [|y t]]]]; try discriminate. destruct (hexval a) as [na|] eqn:Ha; [|discriminate]. destruct (hexval b) as [nb|] eqn:Hb; [|discriminate].
      destruct (hexval x) as [nx|] eqn:Hx; [|discriminate]. destruct (hexval y) as [ny|] eqn:Hy; [|discriminate].
      destruct (N.eqb_spec na 0) as [->|]; [|discriminate]. destruct (N.eqb_spec nb 0) as [->|]; [|discriminate]. cbn [andb] in K.
      destruct (json_string f t) as [[v' q']|] eqn:E; [|discriminate]. cbn [rbind] in K. injection K as <- <-. apply IH in E. destruct E as (b' & -> & B).
      exists ("\"%char :: "u"%char :: a :: b :: x :: y :: b'). split; [reflexivity|]. apply hexval_in in Ha, Hb, Hx, Hy. now apply jt_code.
    + destruct (json_escape e) as [x|] eqn:X; [|discriminate]. destruct (json_string f t) as [[v' q']|] eqn:E; [|discriminate]. cbn [rbind] in K. injection K as <- <-. apply IH in E. destruct E as (b' & -> & B).
      exists ("\"%char :: e :: b'). split; [reflexivity|]. apply jt_escape; [now apply jescape_in|exact B].
  - destruct (json_string f t) as [[v' q']|] eqn:E; [|discriminate]. cbn [rbind] in K. injection K as <- <-. apply IH in E. destruct E as (b' & -> & B).
    exists (c :: b'). split; [reflexivity|]. now apply jt_char.
Qed.
Lemma jstring_complete b v r : jtext b v -> forall f, length b < f -> json_string f (b ++ chr 34 :: r) = Ok (v, r).
Proof.
  induction 1 as [|c s v Nq Nb L H IH|e x s v I H IH|z1 z2 h1 h2 n1 n2 s v Z1 Z2 H1 H2 H IH]; intros f F; (destruct f as [|f]; [cbn [length] in F; lia|]); cbn [length] in F.
  - reflexivity.
  - change ((c :: s) ++ chr 34 :: r) with (c :: (s ++ chr 34 :: r)). cbn [json_string]. rewrite (eqb_f c dquote Nq), (proj2 (N.ltb_ge _ _) L), (eqb_f c _ Nb), IH by lia. reflexivity.
  - change (("\"%char :: e :: s) ++ chr 34 :: r) with ("\"%char :: e :: (s ++ chr 34 :: r)). cbn [json_string].
    change (Ascii.eqb "\" dquote) with false. change (N.ltb (code "\"%char) 32) with false. change (Ascii.eqb "\" "\") with true. cbv iota.
    rewrite (eqb_f e "u"%char) by (intros ->; now apply jesc_u in I). rewrite (proj2 (jescape_in e x) I), IH by lia. reflexivity.
  - change (("\"%char :: "u"%char :: z1 :: z2 :: h1 :: h2 :: s) ++ chr 34 :: r) with ("\"%char :: "u"%char :: z1 :: z2 :: h1 :: h2 :: (s ++ chr 34 :: r)). cbn [json_string].
    change (Ascii.eqb "\" dquote) with false. change (N.ltb (code "\"%char) 32) with false. change (Ascii.eqb "\" "\") with true. change (Ascii.eqb "u" "u") with true. cbv iota.
    rewrite (proj2 (hexval_in _ _) Z1), (proj2 (hexval_in _ _) Z2), (proj2 (hexval_in _ _) H1), (proj2 (hexval_in _ _) H2). change (N.eqb 0 0 && N.eqb 0 0)%bool with true. cbv iota. rewrite IH by lia. reflexivity.
Qed.

(** ** numbers *)
Definition after_number (r : str) : Prop := not_next (fun c => a_digit c \/ In c $".eE") r.
Inductive jint : str -> Z -> Prop := jz_pos s n : jnatural s n -> jint s (Z.of_N n) | jz_neg s n : jnatural s n -> jint ("-"%char :: s) (- Z.of_N n).
Definition digits_at (r : str) : str * str := match r with c :: t => if Ascii.eqb c "0" then ([c], t) else span_of is_dec r | [] => ([], r) end.
Definition int_end (neg : bool) (p : str * str) : res (Z * str) :=
  let '(ds, r) := p in
  match ds with
  | [] => if prefixb $"Infinity" r then out_of_model else Raise ValueError
  | _ => match r with
         | c :: _ => if in_chars $".eE" c then out_of_model
                     else match py_int ds with Some z => Ok (if neg then (- z)%Z else z, r) | None => Raise ValueError end
         | [] => match py_int ds with Some z => Ok (if neg then (- z)%Z else z, r) | None => Raise ValueError end
         end
  end.
Lemma json_int_eq s : json_int s = match s with c :: t => if Ascii.eqb c "-" then int_end true (digits_at t) else int_end false (digits_at s) | [] => Raise ValueError end.
Proof. unfold json_int, int_end, digits_at. destruct s as [|c t]; [reflexivity|]. destruct (Ascii.eqb c "-"); reflexivity. Qed.
Lemma jnatural_py s n : jnatural s n -> s <> [] /\ py_int s = Some (Z.of_N n).
Proof.
  intros [|c ds D N F]; [now split|]. split; [discriminate|]. rewrite py_int_dec; [|discriminate|].
  - now rewrite number_digits.
  - eapply Forall_impl; [|apply Forall_cons; [exact D|exact F]]. intros x. apply is_dec_iff.
Qed.
Lemma digits_at_sound s ds r : digits_at s = (ds, r) -> ds <> [] -> s = ds ++ r /\ exists n, jnatural ds n.
Proof.
  unfold digits_at. destruct s as [|c t]; [intros K; injection K as <- <-; congruence|]. destruct (Ascii.eqb_spec c "0"%char) as [->|N].
  - intros K _. injection K as <- <-. split; [reflexivity|]. eexists. constructor.
  - intros K D. apply span_spec in K. destruct K as (E & F & _). split; [exact E|]. destruct ds as [|x ds]; [congruence|]. injection E as <- E. inversion F as [|? ? F1 F2]; subst.
    eexists. constructor; [now apply is_dec_iff|exact N|]. eapply Forall_impl; [|exact F2]. intros y. apply is_dec_iff.
Qed.
Lemma digits_at_complete ds n r : jnatural ds n -> after_number r -> digits_at (ds ++ r) = (ds, r).
Proof.
  intros [|c t D N F] A; [reflexivity|]. change (digits_at ((c :: t) ++ r)) with (if Ascii.eqb c "0" then ([c], t ++ r) else span_of is_dec ((c :: t) ++ r)). rewrite (eqb_f c _ N).
  apply span_spec. repeat split.
  - eapply Forall_impl; [|apply Forall_cons; [exact D|exact F]]. intros x. apply is_dec_iff.
  - intros x u E K. apply (A x u E). left. now apply is_dec_iff.
Qed.
Lemma int_end_ok neg ds n r : jnatural ds n -> after_number r -> int_end neg (ds, r) = Ok ((if neg then - Z.of_N n else Z.of_N n)%Z, r).
Proof.
  intros J A. destruct (jnatural_py _ _ J) as [N P]. unfold int_end. destruct ds as [|c ds]; [congruence|]. rewrite P. destruct r as [|x r]; [reflexivity|].
  destruct (in_chars $".eE" x) eqn:E; [|reflexivity]. elim (A x r eq_refl). right. now apply in_chars_iff.
Qed.
Lemma int_end_sound neg ds r z q : int_end neg (ds, r) = Ok (z, q) -> ds <> [] /\ q = r /\ forall n, jnatural ds n -> z = (if neg then - Z.of_N n else Z.of_N n)%Z.
Proof.
  unfold int_end. destruct ds as [|c ds]; [destruct (prefixb _ r); discriminate|]. intros K. split; [discriminate|].
  assert (X : q = r /\ exists y, py_int (c :: ds) = Some y /\ z = (if neg then - y else y)%Z).
  { destruct r as [|x r]; [|destruct (in_chars $".eE" x); [discriminate|]]; destruct (py_int (c :: ds)) as [y|]; try discriminate; injection K as <- <-; split; eauto. }
  destruct X as (-> & y & Y & ->). split; [reflexivity|]. intros n J. apply jnatural_py in J. destruct J as [_ J]. assert (X : y = Z.of_N n) by congruence. now rewrite X.
Qed.
Lemma jint_sound s z r : json_int s = Ok (z, r) -> exists t, s = t ++ r /\ jint t z.
Proof.
  rewrite json_int_eq. destruct s as [|c s]; [discriminate|]. destruct (Ascii.eqb_spec c "-"%char) as [->|N].
  - destruct (digits_at s) as [ds q] eqn:E. intros K. apply int_end_sound in K. destruct K as (D & -> & Z). apply digits_at_sound in E; [|exact D]. destruct E as (-> & n & J). exists ("-"%char :: ds). split; [reflexivity|]. rewrite (Z n J). now constructor.
  - destruct (digits_at (c :: s)) as [ds q] eqn:E. intros K. apply int_end_sound in K. destruct K as (D & -> & Z). apply digits_at_sound in E; [|exact D]. destruct E as (-> & n & J). exists ds. split; [reflexivity|]. rewrite (Z n J). now constructor.
Qed.
Lemma jnatural_head s n : jnatural s n -> exists c t, s = c :: t /\ a_digit c.
Proof. intros [|c ds D _ _]; [exists "0"%char, []; split; [reflexivity|unfold a_digit; cbn; lia]|now exists c, ds]. Qed.
Lemma json_int_pos c t : c <> "-"%char -> json_int (c :: t) = int_end false (digits_at (c :: t)).
Proof. intros N. rewrite json_int_eq. now rewrite (eqb_f c _ N). Qed.
Lemma json_int_neg t : json_int ("-"%char :: t) = int_end true (digits_at t). Proof. now rewrite json_int_eq. Qed.
Lemma jint_complete t z r : jint t z -> after_number r -> json_int (t ++ r) = Ok (z, r).
Proof.
  intros [s n J|s n J] A.
  - destruct (jnatural_head _ _ J) as (c & u & -> & D). change ((c :: u) ++ r) with (c :: (u ++ r)). rewrite json_int_pos by (intros ->; unfold a_digit in D; cbn in D; lia).
    change (c :: u ++ r) with ((c :: u) ++ r). rewrite (digits_at_complete _ _ _ J A). exact (int_end_ok false _ n r J A).
  - change (("-"%char :: s) ++ r) with ("-"%char :: (s ++ r)). rewrite json_int_neg, (digits_at_complete _ _ _ J A). exact (int_end_ok true _ n r J A).
Qed.

(** ** values *)
Scheme jvalue_m := Induction for jvalue Sort Prop with jitems_m := Induction for jitems Sort Prop with jmembers_m := Induction for jmembers Sort Prop.
Combined Scheme json_mut from jvalue_m, jitems_m, jmembers_m.
Definition starts (x : ascii) (s : str) : option str := match s with c :: t => if Ascii.eqb c x then Some t else None | [] => None end.
Lemma starts_yes x t : starts x (x :: t) = Some t. Proof. unfold starts. now rewrite Ascii.eqb_refl. Qed.
Lemma starts_iff x s t : starts x s = Some t <-> s = x :: t.
Proof. unfold starts. destruct s as [|c u]; [split; discriminate|]. destruct (Ascii.eqb_spec c x) as [->|N]; split; intros K; congruence. Qed.
Ltac bits c := destruct c as [[] [] [] [] [] [] [] []]; try reflexivity.
Lemma json_value_eq f s : json_value (S f) s =
      match s with
      | [] => Raise ValueError
      | c :: t =>
          if Ascii.eqb c dquote then do (v, r) <- json_string (S (length t)) t; Ok (VStr v, r)
          else if Ascii.eqb c "[" then
            match starts "]" (json_skip t) with
            | Some r => Ok (VList [], r)
            | None => do (l, q) <- json_items f (json_skip t); Ok (VList l, q)
            end
          else if Ascii.eqb c "{" then
            match starts "}" (json_skip t) with
            | Some r => Ok (VDict [], r)
            | None => do (d, q) <- json_members f (json_skip t) []; Ok (VDict d, q)
            end
          else match cut $"null" s with Some r => Ok (VNone, r) | None =>
               match cut $"true" s with Some r => Ok (VBool true, r) | None =>
               match cut $"false" s with Some r => Ok (VBool false, r) | None =>
               if (prefixb $"NaN" s || prefixb $"Infinity" s)%bool then out_of_model
               else do (z, r) <- json_int s; Ok (VInt z, r)
               end end end
      end.
Proof.
  cbn [json_value]. destruct s as [|c t]; [reflexivity|]. destruct (Ascii.eqb c dquote); [reflexivity|].
  destruct (Ascii.eqb c "["); [destruct (json_skip t) as [|x q]; [reflexivity|bits x]|].
  destruct (Ascii.eqb c "{"); [destruct (json_skip t) as [|x q]; [reflexivity|bits x]|]. reflexivity.
Qed.
Lemma json_items_eq f s : json_items (S f) s =
      do (v, r) <- json_value f s;
      match json_skip r with
      | ","%char :: q => do (l, q) <- json_items f (json_skip q); Ok (v :: l, q)
      | "]"%char :: q => Ok ([v], q)
      | _ => Raise ValueError
      end.
Proof. reflexivity. Qed.
Lemma json_members_eq f s d : json_members (S f) s d =
      match s with
      | c :: t =>
          if Ascii.eqb c dquote then
            do (k, r) <- json_string (S (length t)) t;
            match json_skip r with
            | ":"%char :: r =>
                do (v, r) <- json_value f (json_skip r);
                match json_skip r with
                | ","%char :: q => json_members f (json_skip q) (dset d (KS k) v)
                | "}"%char :: q => Ok (dset d (KS k) v, q)
                | _ => Raise ValueError
                end
            | _ => Raise ValueError
            end
          else Raise ValueError
      | [] => Raise ValueError
      end.
Proof. reflexivity. Qed.
Lemma case_co {A} (s : str) (a : str -> A) (b : A) : match s with ":"%char :: r => a r | _ => b end = match starts ":" s with Some r => a r | None => b end.
Proof. destruct s as [|c t]; [reflexivity|]. bits c. Qed.
Lemma case_2q {A} (s : str) (a a' : str -> A) (b : A) : match s with ","%char :: r => a r | "]"%char :: r => a' r | _ => b end = match starts "," s with Some r => a r | None => match starts "]" s with Some r => a' r | None => b end end.
Proof. destruct s as [|c t]; [reflexivity|]. bits c. Qed.
Lemma case_2c {A} (s : str) (a a' : str -> A) (b : A) : match s with ","%char :: r => a r | "}"%char :: r => a' r | _ => b end = match starts "," s with Some r => a r | None => match starts "}" s with Some r => a' r | None => b end end.
Proof. destruct s as [|c t]; [reflexivity|]. bits c. Qed.

Lemma cut_some p s r : cut p s = Some r <-> s = p ++ r.
Proof.
  unfold cut. destruct (prefixb p s) eqn:E.
  - apply prefix_iff in E. destruct E as [t ->]. rewrite skipn_app_exact. split; [intros K; congruence|]. intros K. apply app_inv_head in K. now subst.
  - split; [discriminate|]. intros ->. rewrite (proj2 (prefix_iff p (p ++ r))) in E by eauto. discriminate.
Qed.
Lemma jitems_blank w t l : jblank w -> jitems t l -> jitems (w ++ t) l.
Proof.
  intros W [w1 s w2 v H1 H2 H3|w1 s w2 v u m H1 H2 H3 H4]; rewrite app_assoc; constructor; try assumption; now apply Forall_app.
Qed.
Lemma jmembers_blank w t l : jblank w -> jmembers t l -> jmembers (w ++ t) l.
Proof.
  intros W [w1 k kv w2 w3 s v w4 H1 H2 H3 H4 H5 H6|w1 k kv w2 w3 s v w4 u m H1 H2 H3 H4 H5 H6 H7]; rewrite app_assoc; constructor; try assumption; now apply Forall_app.
Qed.
Definition sets (d : dict) (l : list (str * val)) : dict := fold_left (fun d e => dset d (fst e) (snd e)) (map (fun e => (KS (fst e), snd e)) l) d.
Lemma json_sound n :
  (forall s v r, json_value n s = Ok (v, r) -> exists t, s = t ++ r /\ jvalue t v) /\
  (forall s l r, json_items n s = Ok (l, r) -> exists t, s = t ++ "]"%char :: r /\ jitems t l) /\
  (forall s d d' r, json_members n s d = Ok (d', r) -> exists t l, s = t ++ "}"%char :: r /\ jmembers t l /\ d' = sets d l).
Proof.
  induction n as [|n (IV & II & IM)]; [repeat split; intros; discriminate|]. repeat split.
  - intros s v r K. rewrite json_value_eq in K. destruct s as [|c t]; [discriminate|].
    destruct (Ascii.eqb_spec c dquote) as [->|N1].
    { destruct (json_string (S (length t)) t) as [[x q]|] eqn:E; [|discriminate]. cbn [rbind] in K. injection K as <- <-. apply jstring_sound in E. destruct E as (b & -> & B).
      exists (chr 34 :: b ++ [chr 34]). split; [now rewrite <- app_comm_cons, <- app_assoc|]. now constructor. }
    destruct (Ascii.eqb_spec c "["%char) as [->|N2].
    { destruct (jskip_is t) as (w & E & W & _). destruct (starts "]" (json_skip t)) as [q|] eqn:S.
      - injection K as <- <-. apply starts_iff in S. rewrite S in E. subst t. exists ("["%char :: w ++ ["]"%char]). split; [now rewrite <- app_comm_cons, <- app_assoc|]. now apply jv_no_items.
      - destruct (json_items n (json_skip t)) as [[l q]|] eqn:F; [|discriminate]. cbn [rbind] in K. injection K as <- <-. apply II in F. destruct F as (u & F & J). rewrite F in E. subst t.
        exists ("["%char :: (w ++ u) ++ ["]"%char]). split; [now rewrite <- app_comm_cons, <- !app_assoc|]. apply jv_items. now apply jitems_blank. }
    destruct (Ascii.eqb_spec c "{"%char) as [->|N3].
    { destruct (jskip_is t) as (w & E & W & _). destruct (starts "}" (json_skip t)) as [q|] eqn:S.
      - injection K as <- <-. apply starts_iff in S. rewrite S in E. subst t. exists ("{"%char :: w ++ ["}"%char]). split; [now rewrite <- app_comm_cons, <- app_assoc|]. now apply jv_no_members.
      - destruct (json_members n (json_skip t) []) as [[d q]|] eqn:F; [|discriminate]. cbn [rbind] in K. injection K as <- <-. apply IM in F. destruct F as (u & l & F & J & ->). rewrite F in E. subst t.
        exists ("{"%char :: (w ++ u) ++ ["}"%char]). split; [now rewrite <- app_comm_cons, <- !app_assoc|]. apply jv_members. now apply jmembers_blank. }
    destruct (cut $"null" (c :: t)) as [q|] eqn:C1. { injection K as <- <-. apply cut_some in C1. exists (t_ "null"). split; [exact C1|constructor]. }
    destruct (cut $"true" (c :: t)) as [q|] eqn:C2. { injection K as <- <-. apply cut_some in C2. exists (t_ "true"). split; [exact C2|constructor]. }
    destruct (cut $"false" (c :: t)) as [q|] eqn:C3. { injection K as <- <-. apply cut_some in C3. exists (t_ "false"). split; [exact C3|constructor]. }
    destruct (prefixb $"NaN" (c :: t) || prefixb $"Infinity" (c :: t))%bool; [discriminate|].
    destruct (json_int (c :: t)) as [[z q]|] eqn:E; [|discriminate]. cbn [rbind] in K. injection K as <- <-. apply jint_sound in E. destruct E as (u & E & J). exists u. split; [exact E|]. destruct J; now constructor.
  - intros s l r K. rewrite json_items_eq in K. destruct (json_value n s) as [[v q]|] eqn:E; [|discriminate]. cbn [rbind] in K. apply IV in E. destruct E as (t & -> & J).
    rewrite case_2q in K. destruct (jskip_is q) as (w & E & W & _). destruct (starts "," (json_skip q)) as [q2|] eqn:S.
    + apply starts_iff in S. rewrite S in E. subst q. destruct (json_items n (json_skip q2)) as [[l' r']|] eqn:F; [|discriminate]. cbn [rbind] in K. injection K as <- <-. apply II in F. destruct F as (u & F & J2).
      destruct (jskip_is q2) as (w' & E & W' & _). rewrite F in E. subst q2. exists ([] ++ t ++ w ++ ","%char :: (w' ++ u)). split; [cbn [app]; rewrite <- !app_assoc, <- app_comm_cons; now rewrite <- !app_assoc|].
      apply ji_more; try assumption; [constructor|]. now apply jitems_blank.
    + destruct (starts "]" (json_skip q)) as [q2|] eqn:S2; [|discriminate]. injection K as <- <-. apply starts_iff in S2. rewrite S2 in E. subst q. exists ([] ++ t ++ w). split; [cbn [app]; now rewrite <- !app_assoc|]. apply ji_one; try assumption. constructor.
  - intros s d d' r K. rewrite json_members_eq in K. destruct s as [|c t]; [discriminate|]. destruct (Ascii.eqb_spec c dquote) as [->|]; [|discriminate].
    destruct (json_string (S (length t)) t) as [[k q]|] eqn:E; [|discriminate]. cbn [rbind] in K. apply jstring_sound in E. destruct E as (b & -> & B).
    rewrite case_co in K. destruct (jskip_is q) as (w2 & E & W2 & _). destruct (starts ":" (json_skip q)) as [q2|] eqn:S; [|discriminate]. apply starts_iff in S. rewrite S in E. subst q. clear S.
    destruct (json_value n (json_skip q2)) as [[v q3]|] eqn:F; [|discriminate]. cbn [rbind] in K. apply IV in F. destruct F as (u & F & J). destruct (jskip_is q2) as (w3 & E & W3 & _). rewrite F in E. subst q2. clear F.
    rewrite case_2c in K. destruct (jskip_is q3) as (w4 & E & W4 & _). destruct (starts "," (json_skip q3)) as [q4|] eqn:S.
    + apply starts_iff in S. rewrite S in E. subst q3. apply IM in K. destruct K as (x & l & F & JM & ->). destruct (jskip_is q4) as (w5 & E & W5 & _). rewrite F in E. subst q4.
      exists ([] ++ chr 34 :: b ++ chr 34 :: w2 ++ ":"%char :: w3 ++ u ++ w4 ++ ","%char :: (w5 ++ x)), ((k, v) :: l). repeat split.
      * cbn [app]. change dquote with (chr 34). repeat (rewrite <- ?app_assoc, <- ?app_comm_cons). reflexivity.
      * apply jm_more; try assumption; [constructor|]. now apply jmembers_blank.
    + destruct (starts "}" (json_skip q3)) as [q4|] eqn:S2; [|discriminate]. injection K as <- <-. apply starts_iff in S2. rewrite S2 in E. subst q3.
      exists ([] ++ chr 34 :: b ++ chr 34 :: w2 ++ ":"%char :: w3 ++ u ++ w4), [(k, v)]. repeat split.
      * cbn [app]. change dquote with (chr 34). repeat (rewrite <- ?app_assoc, <- ?app_comm_cons). reflexivity.
      * apply jm_one; try assumption. constructor.
Qed.

(** the first character of a value *)
Lemma jvalue_head t v : jvalue t v -> exists c u, t = c :: u /\ ~ jb c /\ c <> "]"%char /\ c <> "}"%char.
Proof.
  assert (D : forall c, a_digit c -> ~ jb c /\ c <> "]"%char /\ c <> "}"%char).
  { intros c. unfold a_digit, jb. intros H. repeat split; [cbn; lia| |]; intros ->; cbn in H; lia. }
  destruct 1 as [| | |s n J|s n J|s v J|w W|s l J|w W|s l J]; try (eexists _, _; split; [reflexivity|repeat split; [njb|discriminate|discriminate]]).
  destruct (jnatural_head _ _ J) as (c & u & -> & H). exists c, u. split; [reflexivity|now apply D].
Qed.

Lemma head_stay t v r : jvalue t v -> json_skip (t ++ r) = t ++ r.
Proof. intros J. destruct (jvalue_head _ _ J) as (c & u & -> & N & _). now apply jskip_char. Qed.
Lemma after_cases w c r : jblank w -> In c [","%char; "]"%char; "}"%char] -> after_number (w ++ c :: r).
Proof.
  intros W I x t E [D|D].
  - destruct w as [|y w]; [injection E as <- <-; cbn in I; destruct I as [<-|[<-|[<-|[]]]]; unfold a_digit in D; cbn in D; lia|].
    injection E as <- <-. inversion W as [|? ? W1 _]; subst. unfold a_digit in D. cbn in W1. lia.
  - destruct w as [|y w]; [injection E as <- <-; cbn in I, D; destruct I as [<-|[<-|[<-|[]]]]; intuition discriminate|].
    injection E as <- <-. inversion W as [|? ? W1 _]; subst. cbn in D. destruct D as [<-|[<-|[<-|[]]]]; cbn in W1; intuition discriminate.
Qed.
Lemma after_blank w : jblank w -> after_number w.
Proof.
  intros W x t E D. destruct w as [|y w]; [discriminate|]. injection E as <- <-. inversion W as [|? ? W1 _]; subst. destruct D as [D|D].
  - unfold a_digit in D. cbn in W1. lia.
  - cbn in D. destruct D as [<-|[<-|[<-|[]]]]; cbn in W1; intuition discriminate.
Qed.
Lemma jint_head t z : jint t z -> exists c u, t = c :: u /\ (a_digit c \/ c = "-"%char).
Proof. intros [s n J|s n J]; [destruct (jnatural_head _ _ J) as (c & u & -> & D); exists c, u; auto|exists "-"%char, s; auto]. Qed.
Lemma other_prefix x p c s : c <> x -> prefixb (x :: p) (c :: s) = false.
Proof. intros N. destruct (prefixb (x :: p) (c :: s)) eqn:E; [|reflexivity]. apply prefix_iff in E. destruct E as [t E]. injection E as E _. now elim N. Qed.
Lemma value_int n t z r : jint t z -> after_number r -> json_value (S n) (t ++ r) = Ok (VInt z, r).
Proof.
  intros J A. destruct (jint_head _ _ J) as (c & u & E & H). rewrite json_value_eq. pose proof (jint_complete _ _ _ J A) as K. rewrite E in K |- *. change ((c :: u) ++ r) with (c :: (u ++ r)) in *. cbv iota.
  assert (X : forall x, ~ a_digit x -> x <> "-"%char -> c <> x) by (intros x X1 X2 ->; tauto).
  assert (Q : c <> dquote /\ c <> "["%char /\ c <> "{"%char /\ c <> "n"%char /\ c <> "t"%char /\ c <> "f"%char /\ c <> "N"%char /\ c <> "I"%char)
    by (repeat split; apply X; try discriminate; unfold a_digit; cbn; lia).
  destruct Q as (Q1 & Q2 & Q3 & Q4 & Q5 & Q6 & Q7 & Q8). rewrite (eqb_f _ _ Q1), (eqb_f _ _ Q2), (eqb_f _ _ Q3). unfold cut.
  change $"null" with ("n"%char :: $"ull"). change $"true" with ("t"%char :: $"rue"). change $"false" with ("f"%char :: $"alse"). change $"NaN" with ("N"%char :: $"aN"). change $"Infinity" with ("I"%char :: $"nfinity").
  rewrite !other_prefix by assumption. cbn [orb]. rewrite K. reflexivity.
Qed.
Lemma json_complete :
  (forall t v, jvalue t v -> forall n r, 2 * length t <= n -> after_number r -> json_value n (t ++ r) = Ok (v, r)) /\
  (forall t l, jitems t l -> forall n r, 2 * length t < n -> json_items n (json_skip (t ++ "]"%char :: r)) = Ok (l, r) /\ starts "]" (json_skip (t ++ "]"%char :: r)) = None) /\
  (forall t l, jmembers t l -> forall n r d, 2 * length t < n -> json_members n (json_skip (t ++ "}"%char :: r)) d = Ok (sets d l, r) /\ starts "}" (json_skip (t ++ "}"%char :: r)) = None).
Proof.
  apply json_mut; try (intros n r L A; destruct n as [|n]; [cbn in L; lia|]; reflexivity).
  - intros s m J n r L A. destruct n as [|n]; [destruct (jnatural_head _ _ J) as (c & u & -> & _); cbn [length] in L; lia|]. apply value_int; [now constructor|exact A].
  - intros s m J n r L A. destruct n as [|n]; [cbn [length] in L; lia|]. apply value_int; [now constructor|exact A].
  - intros s v J n r L A. destruct n as [|n]; [cbn [length] in L; lia|]. rewrite json_value_eq. change ((chr 34 :: s ++ [chr 34]) ++ r) with (chr 34 :: ((s ++ [chr 34]) ++ r)). change (Ascii.eqb (chr 34) dquote) with true. cbv iota.
    rewrite <- app_assoc. change ([chr 34] ++ r) with (chr 34 :: r). rewrite (jstring_complete s v r J) by (rewrite app_length; lia). reflexivity.
  - intros w W n r L A. destruct n as [|n]; [cbn [length] in L; lia|]. rewrite json_value_eq. change (("["%char :: w ++ ["]"%char]) ++ r) with ("["%char :: ((w ++ ["]"%char]) ++ r)).
    change (Ascii.eqb "[" dquote) with false. change (Ascii.eqb "[" "[") with true. cbv iota. rewrite <- app_assoc. change (["]"%char] ++ r) with ("]"%char :: r). rewrite (jskip_over w _ W), jskip_char by njb. now rewrite starts_yes.
  - intros s l J IH n r L A. destruct n as [|n]; [cbn [length] in L; lia|]. rewrite json_value_eq. change (("["%char :: s ++ ["]"%char]) ++ r) with ("["%char :: ((s ++ ["]"%char]) ++ r)).
    change (Ascii.eqb "[" dquote) with false. change (Ascii.eqb "[" "[") with true. cbv iota. rewrite <- app_assoc. change (["]"%char] ++ r) with ("]"%char :: r).
    cbn [length] in L. rewrite app_length in L. cbn [length] in L. destruct (IH n r ltac:(lia)) as [E ->]. now rewrite E.
  - intros w W n r L A. destruct n as [|n]; [cbn [length] in L; lia|]. rewrite json_value_eq. change (("{"%char :: w ++ ["}"%char]) ++ r) with ("{"%char :: ((w ++ ["}"%char]) ++ r)).
    change (Ascii.eqb "{" dquote) with false. change (Ascii.eqb "{" "[") with false. change (Ascii.eqb "{" "{") with true. cbv iota. rewrite <- app_assoc. change (["}"%char] ++ r) with ("}"%char :: r). rewrite (jskip_over w _ W), jskip_char by njb. now rewrite starts_yes.
  - intros s l J IH n r L A. destruct n as [|n]; [cbn [length] in L; lia|]. rewrite json_value_eq. change (("{"%char :: s ++ ["}"%char]) ++ r) with ("{"%char :: ((s ++ ["}"%char]) ++ r)).
    change (Ascii.eqb "{" dquote) with false. change (Ascii.eqb "{" "[") with false. change (Ascii.eqb "{" "{") with true. cbv iota. rewrite <- app_assoc. change (["}"%char] ++ r) with ("}"%char :: r).
    cbn [length] in L. rewrite app_length in L. cbn [length] in L. destruct (IH n r [] ltac:(lia)) as [E ->]. now rewrite E.
  - intros w1 s w2 v W1 J IH W2 n r L. rewrite !app_length in L. destruct n as [|n]; [lia|]. rewrite <- !app_assoc, (jskip_over w1 _ W1), (head_stay _ _ _ J). destruct (jvalue_head _ _ J) as (c & u & E & _ & N & _). split.
    + rewrite json_items_eq, IH by (lia || (apply after_cases; [exact W2|cbn; tauto])). cbn [rbind]. rewrite case_2q, (jskip_over w2 _ W2), jskip_char by njb. reflexivity.
    + rewrite E. change ((c :: u) ++ w2 ++ "]"%char :: r) with (c :: (u ++ w2 ++ "]"%char :: r)). cbn [starts]. now rewrite (eqb_f _ _ N).
  - intros w1 s w2 v t l W1 J IH W2 JI II n r L. rewrite !app_length in L. cbn [length] in L. destruct n as [|n]; [lia|]. rewrite <- !app_assoc, (jskip_over w1 _ W1), (head_stay _ _ _ J). destruct (jvalue_head _ _ J) as (c & u & E & _ & N & _). split.
    + change ((","%char :: t) ++ "]"%char :: r) with (","%char :: (t ++ "]"%char :: r)). rewrite json_items_eq, IH by (lia || (apply after_cases; [exact W2|cbn; tauto])). cbn [rbind]. rewrite case_2q, (jskip_over w2 _ W2), jskip_char by njb. rewrite starts_yes.
      destruct (II n r ltac:(lia)) as [-> _]. reflexivity.
    + rewrite E. change ((c :: u) ++ w2 ++ (","%char :: t) ++ "]"%char :: r) with (c :: (u ++ w2 ++ (","%char :: t) ++ "]"%char :: r)). cbn [starts]. now rewrite (eqb_f _ _ N).
  - intros w1 k kv w2 w3 s v w4 W1 T W2 W3 J IH W4 n r d L. rewrite !app_length in L. cbn [length] in L. rewrite !app_length in L. cbn [length] in L. rewrite !app_length in L. cbn [length] in L. rewrite !app_length in L. destruct n as [|n]; [lia|].
    rewrite <- app_assoc, (jskip_over w1 _ W1). rewrite <- app_comm_cons, jskip_char by njb. split; [|reflexivity].
    rewrite json_members_eq. change (Ascii.eqb (chr 34) dquote) with true. cbv iota. rewrite <- app_assoc, <- app_comm_cons, (jstring_complete k kv _ T) by (rewrite app_length; lia). cbn [rbind].
    rewrite case_co, <- app_assoc, (jskip_over w2 _ W2), <- app_comm_cons, jskip_char by njb. rewrite starts_yes. rewrite <- !app_assoc, (jskip_over w3 _ W3), (head_stay _ _ _ J), IH by (lia || (apply after_cases; [exact W4|cbn; tauto])).
    cbn [rbind]. rewrite case_2c, (jskip_over w4 _ W4), jskip_char by njb. reflexivity.
  - intros w1 k kv w2 w3 s v w4 t l W1 T W2 W3 J IH W4 JM IM n r d L. rewrite !app_length in L. cbn [length] in L. rewrite !app_length in L. cbn [length] in L. rewrite !app_length in L. cbn [length] in L. rewrite !app_length in L. cbn [length] in L. destruct n as [|n]; [lia|].
    rewrite <- app_assoc, (jskip_over w1 _ W1). rewrite <- app_comm_cons, jskip_char by njb. split; [|reflexivity].
    rewrite json_members_eq. change (Ascii.eqb (chr 34) dquote) with true. cbv iota. rewrite <- app_assoc, <- app_comm_cons, (jstring_complete k kv _ T) by (rewrite app_length; lia). cbn [rbind].
    rewrite case_co, <- app_assoc, (jskip_over w2 _ W2), <- app_comm_cons, jskip_char by njb. rewrite starts_yes. rewrite <- !app_assoc, (jskip_over w3 _ W3), (head_stay _ _ _ J). rewrite <- app_comm_cons, IH by (lia || (apply after_cases; [exact W4|cbn; tauto])).
    cbn [rbind]. rewrite case_2c, (jskip_over w4 _ W4), jskip_char by njb. rewrite starts_yes.
    destruct (IM n r (dset d (KS kv) v) ltac:(lia)) as [-> _]. reflexivity.
Qed.
Theorem json_iff s v : json_loads s = Ok v <-> json_text s v.
Proof.
  unfold json_loads, json_text. destruct (jskip_is s) as (w & E & W & N). split.
  - intros K. destruct (json_value (S (S (2 * length s))) (json_skip s)) as [[x r]|] eqn:F; [|discriminate]. cbn [rbind] in K. apply (proj1 (json_sound _)) in F. destruct F as (t & F & J).
    destruct (jskip_is r) as (w2 & E2 & W2 & _). destruct (json_skip r); [|discriminate]. injection K as <-. rewrite app_nil_r in E2. subst r. exists w, t, w2. now rewrite <- F.
  - intros (w1 & t & w2 & E2 & W1 & J & W2). rewrite E2 at 2. rewrite (jskip_over w1 _ W1), (head_stay _ _ _ J). rewrite (proj1 json_complete t v J); [| |now apply after_blank].
    + cbn [rbind]. rewrite <- (app_nil_r w2), (jskip_over w2 [] W2). reflexivity.
    + rewrite E2, !app_length. lia.
Qed.
