(** * Properties_Match: C41-C50, C66-C72 - the match variable functions.

    [f_xxx] model /repo/ttp/match/*.py (MatchFuncs.v); a call returns
    (value, flag).  Specifications: SpecMatch.v. *)
From Verif Require Import PyBase DictFacts StrFacts MatchFuncs SpecMatch MatchFacts MatchFacts2 MatchExact PyEqFacts Properties_Save.
Local Open Scope string_scope.
Local Open Scope list_scope.

(** ** C41: a field made of plain items and of ranges between integers is
    replaced by the items with every range written out *)
Theorem C41_unrange : forall rc jc l, rc <> jc -> l <> [] -> Forall (uwf rc jc) l ->
  f_unrange (ufield rc jc l) [rc] [jc] = Ok (VStr (join [jc] (flat_map uexpand l)), FNone).
Proof. exact unrange_expands. Qed.
Print Assumptions C41_unrange.
(** a range x-y with x < y written out is exactly x, x+1, .., y *)
Theorem C41_range : forall x y, (x < y)%Z -> uexpand (Range (str_of_Z x) (str_of_Z y)) = map str_of_Z (upto x y).
Proof. exact uexpand_upto. Qed.
Print Assumptions C41_range.
Theorem C41_no_range : forall data rc jc, ~ In rc data -> f_unrange data [rc] jc = Ok (VStr data, FNone).
Proof. exact unrange_no_range. Qed.
Print Assumptions C41_no_range.
Example C41_ex :
  Forall (uwf "-" ",") [Single $"8"; Range $"10" $"13"; Single $"20"; Range $"98" $"100"] /\
  ufield "-" "," [Single $"8"; Range $"10" $"13"; Single $"20"; Range $"98" $"100"] = $"8,10-13,20,98-100" /\
  f_unrange $"8,10-13,20,98-100" $"-" $"," = Ok (s_ "8,10,11,12,13,20,98,99,100", FNone).
Proof.
  split; [|split; vm_compute; reflexivity].
  repeat apply Forall_cons; try apply Forall_nil;
    repeat split; simpl; try discriminate; try (eexists; vm_compute; reflexivity);
    intros H; repeat destruct H as [H|H]; try discriminate; contradiction.
Qed.

(** ** C66: unrange fails exactly at a range whose start is not a number (ValueError) or which
    nothing follows (IndexError), reading from left to right ([range_fails], SpecMatch.v) *)
Theorem C66_raises : forall data rc jc e, rc <> [] -> jc <> [] ->
  f_unrange data rc jc = Raise e <-> containsb rc data = true /\ range_fails (from_first (pieces rc jc data)) e.
Proof. exact unrange_raises. Qed.
Print Assumptions C66_raises.
(** so an interface range raises; and a leading sign is dropped *)
Theorem C66_limits :
  f_unrange $"Gi0/1-3" $"-" $"," = Raise ValueError /\
  f_unrange $"10-" $"-" $"," = Raise IndexError /\
  f_unrange $"-5" $"-" $"," = Ok (s_ "5", FNone).
Proof. repeat split; vm_compute; reflexivity. Qed.
Print Assumptions C66_limits.
Example C66_ex : pieces $"-" $"," $"1,Gi0/1-3" = [[$"1"; $"Gi0/1"]; [$"3"]] /\
  range_fails (from_first (pieces $"-" $"," $"1,Gi0/1-3")) ValueError /\
  ~ (exists e, f_unrange $"8,10-13" $"-" $"," = Raise e).
Proof.
  split; [vm_compute; reflexivity|]. split.
  - apply (rf_no_number [$"1"] $"Gi0/1" [$"3"] []). vm_compute. reflexivity.
  - intros [e He]. vm_compute in He. discriminate.
Qed.

(** ** C42 *)
Theorem C42_canonical : forall t m, mac_text (mac_digits t) = Some m -> isalnum (mac_digits t) = true ->
  f_mac_eui (VStr t) = Ok (VStr m, FNone).
Proof. exact mac_canonical. Qed.
Print Assumptions C42_canonical.
Theorem C42_idempotent : forall v r, f_mac_eui v = Ok (r, FNone) -> f_mac_eui r = Ok (r, FNone).
Proof. exact mac_idempotent. Qed.
Print Assumptions C42_idempotent.
Theorem C42_other_text : forall v, isalnum (mac_digits (py_str v)) = false -> f_mac_eui v = Ok (v, FNone).
Proof. exact mac_other. Qed.
Print Assumptions C42_other_text.
Example C42_ex :
  mac_text (mac_digits $"0080.41AE.fd7e") = Some $"00:80:41:ae:fd:7e" /\
  mac_text (mac_digits $"00-80-41-ae-FD-7E") = Some $"00:80:41:ae:fd:7e" /\
  isalnum (mac_digits $"0080.41AE.fd7e") = true /\
  f_mac_eui (s_ "0080.41AE.fd7e") = Ok (s_ "00:80:41:ae:fd:7e", FNone) /\
  f_mac_eui (s_ "not a mac") = Ok (s_ "not a mac", FNone).
Proof. repeat split; vm_compute; reflexivity. Qed.

(** ** C67: what mac_eui does to any value, and which texts it leaves alone *)
Theorem C67_any : forall v, f_mac_eui v =
  Ok (if isalnum (mac_digits (py_str v)) then VStr (mac_form (mac_digits (py_str v))) else v, FNone).
Proof. exact mac_exact. Qed.
Print Assumptions C67_any.
Theorem C67_unchanged : forall t, f_mac_eui (VStr t) = Ok (VStr t, FNone) <->
  isalnum (mac_digits t) = false \/ t = mac_form (mac_digits t).
Proof. exact mac_unchanged. Qed.
Print Assumptions C67_unchanged.
(** a word that is no mac address is changed *)
Theorem C67_limits : f_mac_eui (s_ "hello") = Ok (s_ "he:ll:o0:00:00:00", FNone).
Proof. vm_compute. reflexivity. Qed.
Print Assumptions C67_limits.
Example C67_ex : isalnum (mac_digits $"10.1.1.1/24") = false /\ f_mac_eui (s_ "10.1.1.1/24") = Ok (s_ "10.1.1.1/24", FNone) /\
  mac_form (mac_digits $"0080.41AE.fd7e") = $"00:80:41:ae:fd:7e".
Proof. repeat split; vm_compute; reflexivity. Qed.

(** ** C43 *)
Theorem C43_mask : forall n, n <= 32 -> f_to_cidr (VStr (mask_text n)) = Ok (VInt (Z.of_nat n), FNone).
Proof. exact to_cidr_mask. Qed.
Print Assumptions C43_mask.
(** any dotted number: the one bits of all parts are counted *)
Theorem C43_bits : forall zs, zs <> [] -> Forall (fun z => (0 <= z < 256)%Z) zs ->
  f_to_cidr (VStr (join $"." (map str_of_Z zs)))
  = Ok (VInt (Z.of_nat (fold_right Nat.add 0 (map (ones 8) zs))), FNone).
Proof. exact to_cidr_counts. Qed.
Print Assumptions C43_bits.
Theorem C43_not_numbers : forall s x, In x (split $"." s) -> py_int x = None -> f_to_cidr (VStr s) = Ok (VStr s, FNone).
Proof. exact to_cidr_other. Qed.
Print Assumptions C43_not_numbers.
Example C43_ex : mask_text 20 = $"255.255.240.0" /\ mask_text 32 = $"255.255.255.255" /\
  f_to_cidr (s_ "255.255.240.0") = Ok (VInt 20, FNone) /\ f_to_cidr (s_ "any") = Ok (s_ "any", FNone).
Proof. repeat split; vm_compute; reflexivity. Qed.

(** ** C68: which values to_cidr converts, and to what *)
Theorem C68_unchanged : forall s, f_to_cidr (VStr s) = Ok (VStr s, FNone) <-> exists x, In x (split $"." s) /\ py_int x = None.
Proof. exact to_cidr_unchanged. Qed.
Print Assumptions C68_unchanged.
(** otherwise the one bits of the numbers (without sign) are counted, however large they are *)
Theorem C68_converted : forall s zs w, Forall2 (fun x z => py_int x = Some z /\ (Z.abs z < 2 ^ Z.of_nat w)%Z) (split $"." s) zs ->
  f_to_cidr (VStr s) = Ok (VInt (Z.of_nat (fold_right Nat.add 0 (map (fun z => ones w (Z.abs z)) zs))), FNone).
Proof. exact to_cidr_value. Qed.
Print Assumptions C68_converted.
Theorem C68_not_text : forall v, (forall s, v <> VStr s) -> f_to_cidr v = Ok (v, FNone).
Proof. exact to_cidr_not_text. Qed.
Print Assumptions C68_not_text.
(** also what is not a netmask is converted *)
Theorem C68_limits : (forall n, n <= 32 -> $"255.0.255.0" <> mask_text n) /\
  f_to_cidr (s_ "255.0.255.0") = Ok (VInt 16, FNone) /\ f_to_cidr (s_ "10") = Ok (VInt 2, FNone).
Proof.
  split; [|split; vm_compute; reflexivity].
  intros n Hn. do 33 (destruct n as [|n]; [vm_compute; discriminate|]). lia.
Qed.
Print Assumptions C68_limits.
Example C68_ex : Forall2 (fun x z => py_int x = Some z /\ (Z.abs z < 2 ^ Z.of_nat 10)%Z) (split $"." $"-7.512") [(-7)%Z; 512%Z] /\
  f_to_cidr (s_ "-7.512") = Ok (VInt 4, FNone) /\ f_to_cidr (s_ "255.x") = Ok (s_ "255.x", FNone).
Proof. repeat split; try (vm_compute; reflexivity). repeat constructor; vm_compute; reflexivity. Qed.

(** ** C44 *)
Theorem C44_list : forall l i, l <> [] ->
  exists x, nth_error l (clamp (length l) i) = Some x /\ f_item (VList l) i = Ok (x, FNone).
Proof. exact item_list. Qed.
Print Assumptions C44_list.
Theorem C44_str : forall s i, s <> [] ->
  exists c, nth_error s (clamp (length s) i) = Some c /\ f_item (VStr s) i = Ok (VStr [c], FNone).
Proof. exact item_str. Qed.
Print Assumptions C44_str.
Example C44_ex : let l := VList [s_ "a"; s_ "b"; s_ "c"] in
  f_item l 1 = Ok (s_ "b", FNone) /\ f_item l 7 = Ok (s_ "c", FNone) /\ f_item l (-3) = Ok (s_ "a", FNone) /\
  f_item l (-9) = Ok (s_ "a", FNone) /\ f_item l (-1) = Ok (s_ "c", FNone).
Proof. repeat split; vm_compute; reflexivity. Qed.
(** ** C69: when item() fails *)
Theorem C69_empty : forall i, f_item (VList []) i = Raise IndexError /\ f_item (VStr []) i = Raise IndexError.
Proof. intros i. split; [apply item_empty_list|apply item_empty_str]. Qed.
Print Assumptions C69_empty.
Theorem C69_fails : forall v i, (forall d, v <> VDict d) ->
  ((exists r, f_item v i = Ok r) <-> (exists c s, v = VStr (c :: s)) \/ (exists x l, v = VList (x :: l))).
Proof.
  intros v i Hv. destruct v as [|b|z|s|l|d|o]; try (split; [intros [r Hr]; discriminate|intros [(c & s & H)|(x & l & H)]; discriminate]).
  - destruct s as [|c s].
    + rewrite item_empty_str. split; [intros [r Hr]; discriminate|intros [(c & s & H)|(x & l & H)]; discriminate].
    + split; [left; eauto|]. intros _. destruct (item_str (c :: s) i ltac:(discriminate)) as (x & _ & H). eauto.
  - destruct l as [|x l].
    + rewrite item_empty_list. split; [intros [r Hr]; discriminate|intros [(c & s & H)|(x & l & H)]; discriminate].
    + split; [right; eauto|]. intros _. destruct (item_list (x :: l) i ltac:(discriminate)) as (y & _ & H). eauto.
  - exfalso. now apply (Hv d).
Qed.
Print Assumptions C69_fails.
(** a dictionary is asked for an integer key *)
Theorem C69_dictionary : forall d i, f_item (VDict d) i =
  match dget d (KI (item_key (length d) i)) with Some x => Ok (x, FNone) | None => Raise KeyError end.
Proof. exact item_dict. Qed.
Print Assumptions C69_dictionary.
Theorem C69_other : forall v i, (forall s, v <> VStr s) -> (forall l, v <> VList l) -> (forall d, v <> VDict d) -> f_item v i = Raise TypeError.
Proof. exact item_other. Qed.
Print Assumptions C69_other.
Example C69_ex : f_item (VList []) 0 = Raise IndexError /\ f_item (VInt 7) 0 = Raise TypeError /\
  f_item (d_ [("a", s_ "x")]) 0 = Raise KeyError.
Proof. repeat split; vm_compute; reflexivity. Qed.

(** ** C45 *)
Theorem C45_truncate : forall words n, words <> [] -> Forall (fun w => ~ In space w) words ->
  f_truncate (VStr (join $" " words)) (Z.of_nat n) = Ok (VStr (join $" " (firstn n words)), FNone).
Proof. exact truncate_words. Qed.
Print Assumptions C45_truncate.
(** every text is such a list of words *)
Theorem C45_words : forall s, join $" " (split $" " s) = s /\ split $" " s <> [] /\ Forall (fun w => ~ In space w) (split $" " s).
Proof. intros s. split; [now apply join_split|]. split; [apply split_ne|apply (split_pieces space)]. Qed.
Print Assumptions C45_words.
Example C45_ex : f_truncate (s_ "some long description") 2 = Ok (s_ "some long", FNone) /\
  f_truncate (s_ "some long description") 5 = Ok (s_ "some long description", FNone).
Proof. split; vm_compute; reflexivity. Qed.

(** ** C46 *)
Theorem C46_greaterthan : forall s t, digits (strip s) -> digits (strip t) ->
  f_greaterthan (VStr s) (VStr t) = Ok (VStr s, FBool (N.ltb (digits_val (strip t) 0) (digits_val (strip s) 0))).
Proof. exact gt_digits. Qed.
Print Assumptions C46_greaterthan.
Theorem C46_lessthan : forall s t, digits (strip s) -> digits (strip t) ->
  f_lessthan (VStr s) (VStr t) = Ok (VStr s, FBool (N.ltb (digits_val (strip s) 0) (digits_val (strip t) 0))).
Proof. exact lt_digits. Qed.
Print Assumptions C46_lessthan.
Theorem C46_not_digits : forall s t, isdigit (strip s) = false \/ isdigit (strip t) = false ->
  f_greaterthan (VStr s) (VStr t) = Ok (VStr s, FBool false) /\ f_lessthan (VStr s) (VStr t) = Ok (VStr s, FBool false).
Proof. exact cmp_nondigits. Qed.
Print Assumptions C46_not_digits.
Theorem C46_isdigit_notdigit : forall s, f_isdigit (VStr s) = Ok (VStr s, FBool (isdigit (strip s)))
  /\ f_notdigit (VStr s) = Ok (VStr s, FBool (negb (isdigit (strip s)))).
Proof. exact isdigit_notdigit. Qed.
Print Assumptions C46_isdigit_notdigit.
(** contains: some pattern is a substring; exclude: the pattern is not *)
Theorem C46_contains : forall s ps, exists b, f_contains (VStr s) ps = Ok (VStr s, FBool b) /\
  (b = true <-> exists p x y, In p ps /\ s = x ++ p ++ y).
Proof.
  intros s ps. rewrite contains_any. eexists. split; [reflexivity|]. rewrite existsb_exists. split.
  - intros (p & Hp & Hc). apply containsb_spec in Hc as (x & y & ->). eauto.
  - intros (p & x & y & Hp & ->). exists p. split; [exact Hp|]. apply containsb_spec. eauto.
Qed.
Print Assumptions C46_contains.
Theorem C46_exclude : forall s p, exists b, f_exclude (VStr s) p = Ok (VStr s, FBool b) /\
  (b = true <-> ~ exists x y, s = x ++ p ++ y).
Proof.
  intros s p. rewrite exclude_not. eexists. split; [reflexivity|]. rewrite <- containsb_spec.
  destruct (containsb p s); simpl; split; congruence.
Qed.
Print Assumptions C46_exclude.
Theorem C46_re_complements : forall search data p,
  flips (f_notstartswith_re search data p) (f_startswith_re search data p) /\
  flips (f_notendswith_re search data p) (f_endswith_re search data p) /\
  flips (f_exclude_re search data p) (f_contains_re search data p).
Proof. exact re_complements. Qed.
Print Assumptions C46_re_complements.
(** the regular expression functions search for the pattern anchored at the start, at the end, or nowhere *)
Theorem C46_re : forall search data p b, 
  (search ($"^" ++ p) data = Ok b -> f_startswith_re search data p = Ok (VStr data, FBool b)) /\
  (search (p ++ $"$") data = Ok b -> f_endswith_re search data p = Ok (VStr data, FBool b)) /\
  (search p data = Ok b -> f_contains_re search data p = Ok (VStr data, FBool b)).
Proof.
  intros search data p b. unfold f_startswith_re, f_endswith_re, f_contains_re, yes.
  repeat split; intros H; rewrite H; destruct b; reflexivity.
Qed.
Print Assumptions C46_re.
Theorem C46_equal : forall data v, exists b, f_equal data v = Ok (data, FBool b) /\ f_notequal data v = Ok (data, FBool (negb b)) /\
  (b = true <-> veq data v).
Proof. intros. eexists. split; [reflexivity|]. split; [reflexivity|]. apply py_eq_veq. Qed.
Print Assumptions C46_equal.
Example C46_ex : digits (strip $" 17 ") /\ digits (strip $"9") /\
  f_greaterthan (s_ " 17 ") (s_ "9") = Ok (s_ " 17 ", FBool true) /\ f_lessthan (s_ " 17 ") (s_ "9") = Ok (s_ " 17 ", FBool false)
  /\ f_greaterthan (s_ "1x") (s_ "9") = Ok (s_ "1x", FBool false).
Proof.
  repeat split; try (vm_compute; reflexivity); try discriminate;
  apply Forall_forall; intros c Hc; vm_compute in Hc; repeat destruct Hc as [<-|Hc]; try reflexivity; contradiction.
Qed.
(** ** C70: the comparisons of texts fail exactly when both texts are digits for [str.isdigit] but one is
    not a decimal number *)
Theorem C70_raises : forall s t,
  (odd_digits s t -> f_greaterthan (VStr s) (VStr t) = Raise ValueError /\ f_lessthan (VStr s) (VStr t) = Raise ValueError) /\
  (~ odd_digits s t -> exists b c, f_greaterthan (VStr s) (VStr t) = Ok (VStr s, FBool b) /\ f_lessthan (VStr s) (VStr t) = Ok (VStr s, FBool c)).
Proof. exact compare_raises. Qed.
Print Assumptions C70_raises.
Theorem C70_not_text : forall data v, (forall s, data <> VStr s) ->
  f_greaterthan data v = Raise AttributeError /\ f_lessthan data v = Raise AttributeError.
Proof. exact compare_not_text. Qed.
Print Assumptions C70_not_text.
(** SUPERSCRIPT TWO is a digit but not an integer *)
Example C70_ex : odd_digits [chr 178] $"1" /\ ~ odd_digits $"12" $"1" /\ f_greaterthan (VStr [chr 178]) (s_ "1") = Raise ValueError.
Proof.
  split; [|split; [|vm_compute; reflexivity]].
  - split; [vm_compute; reflexivity|]. split; [vm_compute; reflexivity|]. intros [H _]. vm_compute in H. inversion H. discriminate.
  - intros (_ & _ & H). apply H. split; vm_compute; repeat constructor.
Qed.

(** ** C47 *)
Theorem C47_append : forall env name t, text_of (m_vars env) name t ->
  (forall s, f_append env (VStr s) name = Ok (VStr (s ++ t), FNone)) /\
  (forall l, f_append env (VList l) name = Ok (VList (l ++ [VStr t]), FNone)).
Proof. exact append_spec. Qed.
Print Assumptions C47_append.
Theorem C47_prepend : forall env name t, text_of (m_vars env) name t ->
  (forall s, f_prepend env (VStr s) name = Ok (VStr (t ++ s), FNone)) /\
  (forall l, f_prepend env (VList l) name = Ok (VList (VStr t :: l), FNone)).
Proof. exact prepend_spec. Qed.
Print Assumptions C47_prepend.
Theorem C47_join : forall l char, f_join (VList (map VStr l)) char = Ok (VStr (join char l), FNone).
Proof. exact join_spec. Qed.
Print Assumptions C47_join.
Example C47_ex : let env := {| m_vars := r_ [("dom", s_ ".net")]; m_gvars := [] |} in
  text_of (m_vars env) $"dom" $".net" /\ text_of (m_vars env) $"xyz" $"xyz" /\
  f_append env (s_ "host") $"dom" = Ok (s_ "host.net", FNone).
Proof. split; [left; reflexivity|]. split; [right; split; reflexivity|]. vm_compute; reflexivity. Qed.
(** ** C71: only template variables are looked up *)
(** the global variables play no part *)
Theorem C71_globals_ignored : forall vars g g' data name,
  f_append {| m_vars := vars; m_gvars := g |} data name = f_append {| m_vars := vars; m_gvars := g' |} data name /\
  f_prepend {| m_vars := vars; m_gvars := g |} data name = f_prepend {| m_vars := vars; m_gvars := g' |} data name.
Proof. intros. split; reflexivity. Qed.
Print Assumptions C71_globals_ignored.
(** the name of what is not a template variable is the text that is added *)
Theorem C71_name : forall env name s, dget (m_vars env) (KS name) = None ->
  f_append env (VStr s) name = Ok (VStr (s ++ name), FNone) /\ f_prepend env (VStr s) name = Ok (VStr (name ++ s), FNone).
Proof. exact append_global. Qed.
Print Assumptions C71_name.
Example C71_ex : f_append {| m_vars := r_ [("v", s_ "y")]; m_gvars := r_ [("g", s_ "zz")] |} (s_ "x") $"g" = Ok (s_ "xg", FNone).
Proof. vm_compute. reflexivity. Qed.
(** the documentation says that global variables are looked up too *)
Theorem C71_limits : ~ (forall env name t s, dget (m_vars env) (KS name) = None ->
  dget (m_gvars env) (KS name) = Some (VStr t) -> f_append env (VStr s) name = Ok (VStr (s ++ t), FNone)).
Proof.
  intros H. specialize (H {| m_vars := []; m_gvars := r_ [("g", s_ "zz")] |} $"g" $"zz" $"x" eq_refl eq_refl).
  vm_compute in H. discriminate.
Qed.
Print Assumptions C71_limits.

(** ** C48: the replacements are done one after the other, every occurrence *)
Theorem C48_replaceall : forall vars data new olds, olds <> [] -> Forall (arg_ok vars) olds ->
  f_replaceall vars data (new :: olds)
  = Ok (VStr (fold_left substitute (flat_map (replacements vars new) olds) data), FNone).
Proof. exact replaceall_spec. Qed.
Print Assumptions C48_replaceall.
Theorem C48_one_argument : forall vars data old, arg_ok vars old ->
  f_replaceall vars data [old] = Ok (VStr (fold_left substitute (replacements vars [] old) data), FNone).
Proof. exact replaceall_one. Qed.
Print Assumptions C48_one_argument.
Example C48_ex : let vars := r_ [("intf", d_ [("Ge", VList [s_ "GigabitEthernet"; s_ "GigEth"]); ("Te", s_ "TenGig")])] in
  Forall (arg_ok vars) [$"intf"; $"0/"] /\
  f_replaceall vars $"GigEth0/1" [$""; $"intf"; $"0/"] = Ok (s_ "Ge1", FNone) /\
  f_replaceall [] $"GigabitEthernet3/3" [$"Ethernet"] = Ok (s_ "Gigabit3/3", FNone).
Proof.
  split; [|split; vm_compute; reflexivity].
  repeat constructor; simpl; try (eexists; reflexivity); try discriminate.
Qed.
(** ** C72: an argument of replaceall that names a string variable is ignored *)
Theorem C72_ignored : forall vars data new a name old b, dget vars (KS name) = Some (VStr old) ->
  (a ++ b <> [] -> f_replaceall vars data (new :: a ++ name :: b) = f_replaceall vars data (new :: a ++ b)) /\
  f_replaceall vars data [new; name] = Ok (VStr data, FNone) /\ f_replaceall vars data [name] = Ok (VStr data, FNone).
Proof.
  intros vars data new a name old b E. split; [|destruct (replaceall_string_variable vars data name old new E); auto].
  intros H. unfold f_replaceall.
  assert (K : forall s, rfold (replace_arg vars new) (a ++ name :: b) s = rfold (replace_arg vars new) (a ++ b) s).
  { clear H. induction a as [|x a IH]; intros s; cbn [app rfold]; [unfold replace_arg at 1; rewrite E; reflexivity|].
    destruct (replace_arg vars new s x); [cbn [rbind]; apply IH|reflexivity]. }
  destruct a as [|x a]; cbn [app] in *.
  - destruct b as [|y b]; [congruence|]. now rewrite (K data).
  - now rewrite (K data).
Qed.
Print Assumptions C72_ignored.
Example C72_ex : let vars := r_ [("v", s_ "b")] in dget vars (KS $"v") = Some (s_ "b") /\
  f_replaceall vars $"abcd" [$"-"; $"c"; $"v"] = Ok (s_ "ab-d", FNone).
Proof. vm_compute. repeat split. Qed.
(** list and dictionary variables are used (C48), so one could expect that *)
Theorem C72_limits : ~ (forall vars data name old, dget vars (KS name) = Some (VStr old) -> old <> [] ->
  f_replaceall vars data [name] = Ok (VStr (replace_all old [] data), FNone)).
Proof.
  intros H. specialize (H (r_ [("v", s_ "b")]) $"abc" $"v" $"b" eq_refl ltac:(discriminate)).
  vm_compute in H. discriminate.
Qed.
Print Assumptions C72_limits.

(** ** C49 *)
Theorem C49_lookup_found : forall lookups ts rs name table data k v add,
  follow (dotted name) lookups = Some (VDict table) -> key_of data = Ok k -> dget table k = Some v ->
  f_lookup lookups ts rs data (ByName name) add
  = Ok (match add with Some f => (data, FNew [(f, v)]) | None => (v, FNone) end).
Proof. exact lookup_found. Qed.
Print Assumptions C49_lookup_found.
Theorem C49_lookup_missing : forall lookups ts rs name table data k add,
  follow (dotted name) lookups = Some (VDict table) -> key_of data = Ok k -> dget table k = None ->
  f_lookup lookups ts rs data (ByName name) add = Ok (data, FNone).
Proof. exact lookup_missing. Qed.
Print Assumptions C49_lookup_missing.
Theorem C49_lookup_no_table : forall lookups ts rs name data k add,
  no_table (dotted name) lookups -> key_of data = Ok k ->
  f_lookup lookups ts rs data (ByName name) add = Ok (data, FNone).
Proof. exact lookup_no_table. Qed.
Print Assumptions C49_lookup_no_table.
Theorem C49_add_field_keeps : forall lookups ts rs data src f r fl,
  f_lookup lookups ts rs data src (Some f) = Ok (r, fl) -> r = data.
Proof. exact lookup_add_field_keeps. Qed.
Print Assumptions C49_add_field_keeps.
(** reverse lookup: the first key of the table that occurs in the data decides *)
Theorem C49_rlookup : forall lookups data name d add,
  follow (dotted name) lookups = Some (VDict d) -> skeys d ->
  f_rlookup lookups data name add =
  Ok (match option_map snd (find (fun kv => occurs data (fst kv)) d) with
      | None | Some VNone => (VStr data, FNone)
      | Some v => match add with Some f => (VStr data, FNew [(f, v)]) | None => (v, FNone) end
      end).
Proof. exact rlookup_spec. Qed.
Print Assumptions C49_rlookup.
(** glob pattern lookup: the first (or every) key with a pattern that matches *)
Theorem C49_gpvlookup : forall fnm lookups env data name add record multi d,
  follow (dotted name) lookups = Some (VDict d) -> good_table d ->
  f_gpvlookup fnm lookups env data name add record multi =
  let ks := gpv_result fnm data multi d in
  let found := VList (map key_val ks) in
  Ok (match record with
      | Some r => {| m_vars := dset (m_vars env) r found; m_gvars := dset (m_gvars env) r found |}
      | None => env end,
      match ks with
      | [] => (VStr data, FNone)
      | _ => match add with Some f => (VStr data, FNew [(f, found)]) | None => (found, FNone) end
      end).
Proof. exact gpvlookup_spec. Qed.
Print Assumptions C49_gpvlookup.
Example C49_ex :
  let lk := d_ [("asn", d_ [("as", d_ [("65100", s_ "cust"); ("65200", d_ [("n", s_ "x")])])])] in
  follow (dotted $"asn . as") lk = Some (d_ [("65100", s_ "cust"); ("65200", d_ [("n", s_ "x")])]) /\
  f_lookup lk [] (VList []) (s_ "65100") (ByName $"asn.as") (Some (KS $"info")) = Ok (s_ "65100", FNew [(KS $"info", s_ "cust")]) /\
  f_lookup lk [] (VList []) (s_ "1") (ByName $"asn.as") None = Ok (s_ "1", FNone) /\
  no_table (dotted $"asn.nope.x") lk /\
  f_rlookup lk $"peer 65100" $"asn.as" None = Ok (s_ "cust", FNone).
Proof. repeat split; vm_compute; reflexivity || exact I. Qed.

(** ** C50 *)
Theorem C50_record : forall env data name,
  exists env', f_record env data name = (env', (data, FNone)) /\
    writes_only name data (m_vars env) (m_vars env') /\ writes_only name data (m_gvars env) (m_gvars env').
Proof. exact record_writes. Qed.
Print Assumptions C50_record.
Theorem C50_set_reads_recorded : forall env data name line, rstrip line = line ->
  f_set (fst (f_record env data (KS name))) (VStr line) (VStr name) line = Ok (data, FNone).
Proof. intros env data name line H. apply set_reads; [exact H|]. apply (dget_dset_same (m_vars env)). Qed.
Print Assumptions C50_set_reads_recorded.
Theorem C50_set_global : forall env line name v, rstrip line = line ->
  dget (m_vars env) (KS name) = None -> dget (m_gvars env) (KS name) = Some v ->
  f_set env (VStr line) (VStr name) line = Ok (v, FNone).
Proof. exact set_global. Qed.
Print Assumptions C50_set_global.
Theorem C50_set_other_line : forall env data value line, rstrip data <> line ->
  f_set env (VStr data) value line = Ok (VStr data, FBool false).
Proof. exact set_other_line. Qed.
Print Assumptions C50_set_other_line.
Theorem C50_count : forall n env data v g x y,
  counter (m_vars env) v = Some x -> counter (m_gvars env) g = Some y ->
  exists env', count_times n env data (Some v) (Some g) = Ok env' /\
    counter (m_vars env') v = Some (x + Z.of_nat n)%Z /\ counter (m_gvars env') g = Some (y + Z.of_nat n)%Z /\
    (forall j, j <> v -> dget (m_vars env') j = dget (m_vars env) j) /\
    (forall j, j <> g -> dget (m_gvars env') j = dget (m_gvars env) j).
Proof. exact count_both. Qed.
Print Assumptions C50_count.
Theorem C50_count_var_only : forall env data v x, counter (m_vars env) v = Some x ->
  exists env', f_count env data (Some v) None = Ok (env', (data, FNone)) /\ m_gvars env' = m_gvars env /\
  writes_only v (VInt (x + 1)) (m_vars env) (m_vars env').
Proof. exact count_var_only. Qed.
Print Assumptions C50_count_var_only.
Example C50_ex : let env := {| m_vars := r_ [("a", s_ "1")]; m_gvars := r_ [("t", VInt 7)] |} in
  counter (m_vars env) (KS $"n") = Some 0%Z /\ counter (m_gvars env) (KS $"t") = Some 7%Z /\
  count_times 3 env (s_ "x") (Some (KS $"n")) (Some (KS $"t"))
  = Ok {| m_vars := r_ [("a", s_ "1"); ("n", VInt 3)]; m_gvars := r_ [("t", VInt 10)] |} /\
  rstrip $"line one" = $"line one".
Proof. repeat split; vm_compute; reflexivity. Qed.
