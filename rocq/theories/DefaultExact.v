(** * DefaultExact: where the record of defaults is processed, for texts of any length *)
From Verif Require Import PyBase DictFacts Tree Results SpecTree ResultsFacts PathFacts SpecRecords MachineFacts RunFacts MatchFuncs
  Parser SpecParser ParserFacts ParserFacts2 ParserFacts3.
From Coq Require Import Sorting.Sorted Sorting.Permutation.

Section D.
Variable F : Type.
Notation found := (list (Z * list (item F))).

Lemma insert_split (x y : Z * list (item F)) (b a : found) :
  Forall (fun e => (fst e < fst y)%Z) b -> Forall (fun e => (fst y < fst e)%Z) a -> fst x <> fst y ->
  exists b' a', insert_found F x (b ++ a) = b' ++ a' /\ insert_found F x (b ++ y :: a) = b' ++ y :: a' /\
    Forall (fun e => (fst e < fst y)%Z) b' /\ Forall (fun e => (fst y < fst e)%Z) a'.
Proof.
  intros Hb Ha Hx. destruct (Z.ltb_spec (fst x) (fst y)) as [Hlt|Hge].
  - exists (insert_found F x b), a. induction Hb as [|e b He Hb IH].
    + cbn [app insert_found]. assert (E : (fst x <=? fst y)%Z = true) by (apply Z.leb_le; lia). rewrite E.
      split; [|split; [reflexivity|split; [constructor; [exact Hlt|constructor]|exact Ha]]].
      destruct a as [|z a]; [reflexivity|]. inversion Ha; subst. cbn [insert_found]. assert (E2 : (fst x <=? fst z)%Z = true) by (apply Z.leb_le; lia). rewrite E2. reflexivity.
    + cbn [app insert_found]. destruct IH as (H1 & H2 & H3 & H4). destruct (Z.leb (fst x) (fst e)).
      * split; [reflexivity|]. split; [reflexivity|]. split; [|exact Ha]. constructor; [exact Hlt|]. now constructor.
      * rewrite H1, H2. split; [reflexivity|]. split; [reflexivity|]. split; [now constructor|exact Ha].
  - exists b, (insert_found F x a). assert (Hgt : (fst y < fst x)%Z) by lia.
    assert (Hins : Forall (fun e => (fst y < fst e)%Z) (insert_found F x a)).
    { clear Hb. induction Ha as [|e a He Ha IH]; cbn [insert_found]; [constructor; [exact Hgt|constructor]|].
      destruct (Z.leb (fst x) (fst e)); [constructor; [exact Hgt|now constructor]|now constructor]. }
    induction Hb as [|e b He Hb IH].
    + cbn [app insert_found]. assert (E : (fst x <=? fst y)%Z = false) by (apply Z.leb_gt; lia). rewrite E. auto.
    + cbn [app insert_found]. assert (E : (fst x <=? fst e)%Z = false) by (apply Z.leb_gt; lia). rewrite E.
      destruct IH as (H1 & H2 & H3 & H4). rewrite H1, H2. repeat split; auto.
Qed.
Lemma sort_snoc_split (l : found) y : ~ In (fst y) (map fst l) ->
  exists b a, sort_found F l = b ++ a /\ sort_found F (l ++ [y]) = b ++ y :: a /\
    Forall (fun e => (fst e < fst y)%Z) b /\ Forall (fun e => (fst y < fst e)%Z) a.
Proof.
  induction l as [|x l IH]; intros Hn.
  - exists [], []. cbn. repeat split; constructor.
  - destruct IH as (b & a & E1 & E2 & Hb & Ha); [intros H; apply Hn; now right|].
    cbn [app]. unfold sort_found in *. cbn [fold_right]. rewrite E1, E2. apply insert_split; auto. intros H. apply Hn. now left.
Qed.

(** the record of defaults of [B] stands among the records of [A] at the place of its number, which is
    ten million or more *)
Theorem default_among text g A B env env' rsA :
  tree_ok F B -> pg_default F B = true -> starts_of F B <> [] -> Forall (fun x => pg_default F x = false) (children_of F B) ->
  (forall p, ~ start_at F text B 0 (-1) p) ->
  run_re F text A (env, []) 0 (-1) = Ok (env', rsA) ->
  exists rs key before after, ((default_key <= key)%Z /\ forall z, (default_key <= z < key)%Z -> In z (map fst rsA)) /\
    run_re F text (PG F g [] [] [] false [A; B]) (env, []) 0 (-1) = Ok (env', rs) /\
    sort_found F rsA = before ++ after /\
    Forall (fun e => (fst e < key)%Z) before /\ Forall (fun e => (key < fst e)%Z) after /\
    raw_of F rs = map snd before ++ [(default_re F (pg_group F B) (starts_of F B), Some [])] :: map snd after.
Proof.
  intros HokB HdB HaB HkB HnoB EA. destruct B as [gb a b c d cs]. cbn [pg_default starts_of children_of pg_group] in *. subst d.
  destruct (default_record F text gb a b c cs 0 (-1) (env', rsA) HokB HaB HkB HnoB) as (key & Hk1 & Hk2 & EB). cbn [snd fst] in *.
  destruct (sort_snoc_split rsA (key, [(default_re F gb a, Some [])]) Hk2) as (bf & af & E1 & E2 & Hb & Ha).
  exists (rsA ++ [(key, [(default_re F gb a, Some [])])]), key, bf, af. split; [exact Hk1|]. split.
  - rewrite run_re_eq. cbn [rfold rbind sa_found sa_s sa_st negb no_starts kids_def orb Z.add]. rewrite EA. cbn [rbind]. rewrite EB. reflexivity.
  - split; [exact E1|]. split; [exact Hb|]. split; [exact Ha|]. unfold raw_of. transitivity (map snd (bf ++ (key, [(default_re F gb a, Some [])]) :: af)); [exact (Logic.f_equal (map snd) E2)|now rewrite map_app].
Qed.
End D.
