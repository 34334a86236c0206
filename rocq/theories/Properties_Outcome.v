(** * C133: what every match variable function makes of every value - also the failures. *)
From Verif Require Import PyBase MatchFuncs SpecMatch SpecVariable SpecText SpecCalls SpecOutcome OutcomeFacts OutcomeFacts2 Properties_Save.
Local Open Scope string_scope.
Local Open Scope list_scope.

Theorem C133_exclude : forall data p r, f_exclude data p = r <-> exclude_gives data p r.
Proof. exact exclude_iff. Qed.
Print Assumptions C133_exclude.
Theorem C133_contains : forall data ps r, f_contains data ps = r <-> contains_gives data ps r.
Proof. exact contains_iff. Qed.
Print Assumptions C133_contains.
Theorem C133_join : forall data sep r, f_join data sep = r <-> join_gives sep data r.
Proof. exact join_iff. Qed.
Print Assumptions C133_join.
Theorem C133_append : forall env n data r, f_append env data n = r <-> append_gives false (m_vars env) n data r.
Proof. exact append_iff. Qed.
Print Assumptions C133_append.
Theorem C133_prepend : forall env n data r, f_prepend env data n = r <-> append_gives true (m_vars env) n data r.
Proof. exact prepend_iff. Qed.
Print Assumptions C133_prepend.
Theorem C133_replaceall : forall vars data args r, f_replaceall vars data args = r <-> swap_gives replace_gives (fun _ => None) vars data args r.
Proof. exact replaceall_iff. Qed.
Print Assumptions C133_replaceall.
(** whatever substitutes a pattern *)
Theorem C133_resuball : forall sub escape vars data args r, f_resuball sub escape vars data args = r <->
  swap_gives (fun old new s r => sub old new s 0 = r) (fun o => Some (escape o)) vars data args r.
Proof. exact resuball_iff. Qed.
Print Assumptions C133_resuball.
Theorem C133_resub : forall sub escape vars data old new n r, f_resub sub escape vars data old new n = r <-> resub_gives sub escape vars data old new n r.
Proof. exact resub_iff. Qed.
Print Assumptions C133_resub.
(** whatever searches *)
Theorem C133_search : forall search data p r,
  (f_startswith_re search data p = r <-> search_gives true (search (t_ "^" ++ p) data) data r) /\
  (f_endswith_re search data p = r <-> search_gives true (search (p ++ t_ "$") data) data r) /\
  (f_contains_re search data p = r <-> search_gives true (search p data) data r) /\
  (f_notstartswith_re search data p = r <-> search_gives false (search (t_ "^" ++ p) data) data r) /\
  (f_notendswith_re search data p = r <-> search_gives false (search (p ++ t_ "$") data) data r) /\
  (f_exclude_re search data p = r <-> search_gives false (search p data) data r).
Proof. intros. repeat split; try apply yes_iff; apply no_iff. Qed.
Print Assumptions C133_search.
Theorem C133_truncate : forall n data r, f_truncate data n = r <-> truncate_gives n data r.
Proof. exact truncate_iff. Qed.
Print Assumptions C133_truncate.
Theorem C133_unrange : forall rc jc s r, f_unrange s rc jc = r <-> unrange_gives rc jc s r.
Proof. exact unrange_iff. Qed.
Print Assumptions C133_unrange.
Theorem C133_lookup : forall lookups templates results data src add r,
  f_lookup lookups templates results data src add = r <-> lookup_gives lookups templates results data add src r.
Proof. exact lookup_iff. Qed.
Print Assumptions C133_lookup.
Theorem C133_rlookup : forall lookups data name add r, f_rlookup lookups data name add = r <-> rlookup_gives lookups data name add r.
Proof. exact rlookup_iff. Qed.
Print Assumptions C133_rlookup.
Theorem C133_gpvlookup : forall matching lookups env data name add rec multi r,
  f_gpvlookup matching lookups env data name add rec multi = r <-> gpv_gives matching lookups env data name add rec multi r.
Proof. exact gpv_iff. Qed.
Print Assumptions C133_gpvlookup.
Theorem C133_count : forall env data var glob r, f_count env data var glob = r <-> count_gives env data var glob r.
Proof. exact count_iff. Qed.
Print Assumptions C133_count.
Theorem C133_set : forall env data value line r, f_set env data value line = r <-> set_gives env value line data r.
Proof. exact set_iff. Qed.
Print Assumptions C133_set.
Theorem C133_let : forall data n o r, f_let data n o = r <-> let_gives data n o r.
Proof. exact let_iff. Qed.
Print Assumptions C133_let.
Theorem C133_isdigit : forall data r, f_isdigit data = r <-> isdigit_gives true data r.
Proof. exact isdigit_iff. Qed.
Print Assumptions C133_isdigit.
Theorem C133_notdigit : forall data r, f_notdigit data = r <-> isdigit_gives false data r.
Proof. exact notdigit_iff. Qed.
Print Assumptions C133_notdigit.
Theorem C133_greaterthan : forall data v r, f_greaterthan data v = r <-> compare_gives (fun x y => y < x)%N data v r.
Proof. exact greaterthan_iff. Qed.
Print Assumptions C133_greaterthan.
Theorem C133_lessthan : forall data v r, f_lessthan data v = r <-> compare_gives (fun x y => x < y)%N data v r.
Proof. exact lessthan_iff. Qed.
Print Assumptions C133_lessthan.
Theorem C133_to_int : forall data r, f_to_int data = r <-> to_int_gives data r.
Proof. exact to_int_iff. Qed.
Print Assumptions C133_to_int.
(** the plain ones *)
Theorem C133_plain : forall data name,
  f_to_str data = becomes (VStr (py_str data)) /\ f_to_list data = becomes (VList [data]) /\ f_copy data name = adds_field data name data /\
  f_void data = checked data false /\ f_joinmatches data = becomes data.
Proof. intros. repeat split. Qed.
Print Assumptions C133_plain.

(** some of the outcomes that surprise *)
Theorem C133_limits :
  (* joining what is not all text *)
  f_join (VList [s_ "a"; VInt 1]) $"," = Raise TypeError /\
  (* a lookup table that is a list is asked for a position *)
  f_lookup (d_ [("t", VList [s_ "a"; s_ "b"])]) [] VNone (VInt (-1)) (ByName $"t") None = becomes (s_ "b") /\
  f_lookup (d_ [("t", VList [s_ "a"; s_ "b"])]) [] VNone (VInt 2) (ByName $"t") None = Raise IndexError /\
  f_lookup (d_ [("t", VList [s_ "a"; s_ "b"])]) [] VNone (s_ "a") (ByName $"t") None = Raise TypeError /\
  (* a path through what is no dictionary *)
  f_lookup (d_ [("t", s_ "a")]) [] VNone (s_ "a") (ByName $"t.u") None = Raise AttributeError /\
  (* a template that found nothing *)
  f_lookup VNone [($"first", VList [])] VNone (s_ "a") (ByTemplate $"first.t") None = Raise IndexError /\
  (* a key that is no text *)
  f_rlookup (VDict [(KS $"t", VDict [(KI 1, s_ "x")])]) $"a1" $"t" None = Raise TypeError /\
  (* the last words, and none at all *)
  f_truncate (s_ "a b c") (-1) = becomes (s_ "a b") /\ f_truncate (s_ "a b c") (-7) = becomes (s_ "").
Proof. repeat split; vm_compute; reflexivity. Qed.
Print Assumptions C133_limits.

Example C133_lookup_ex : 
  let res := VList [d_ [("other", VNone)]; d_ [("ports", d_ [("eth", d_ [("1", s_ "up")])])]] in
  f_lookup VNone [] res (s_ "1") (ByGroup $"ports . eth") (Some (KS $"state")) = adds_field (s_ "1") (KS $"state") (s_ "up") /\
  lookup_gives VNone [] res (s_ "1") (Some (KS $"state")) (ByGroup $"ports . eth") (adds_field (s_ "1") (KS $"state") (s_ "up")).
Proof.
  intros res. assert (H : f_lookup VNone [] res (s_ "1") (ByGroup $"ports . eth") (Some (KS $"state")) = adds_field (s_ "1") (KS $"state") (s_ "up")) by (vm_compute; reflexivity).
  split; [exact H|]. now apply C133_lookup.
Qed.
Example C133_unrange_ex : unrange_gives $"-" $"," $"1,3-5,x" (becomes (s_ "1,3,4,5,x")) /\ unrange_gives $"-" $"," $"1-x" (becomes (s_ "1-x")) /\ unrange_gives $"" $"," $"1-2" (Raise ValueError).
Proof. repeat split; apply C133_unrange; vm_compute; reflexivity. Qed.
Example C133_swap_ex : swap_gives replace_gives (fun _ => None) (r_ [("v", d_ [("Te", VList [s_ "TenGig"; VInt 3]); ("x", VNone)])]) $"TenGig1/0" [$"_"; $"/"; $"v"] (becomes (s_ "Te1_0")).
Proof. apply C133_replaceall; vm_compute; reflexivity. Qed.
Example C133_compare_ex : compare_gives (fun x y => y < x)%N (s_ " 17 ") (s_ "9") (checked (s_ " 17 ") true) /\ compare_gives (fun x y => y < x)%N (s_ "17") (VInt 9) (Raise AttributeError).
Proof. split; apply C133_greaterthan; vm_compute; reflexivity. Qed.
Example C133_gpv_ex : let lk := d_ [("g", d_ [("core", VList [s_ "a"; s_ "b"]); ("edge", VList [s_ "b"])])] in
  gpv_gives str_eqb lk {| m_vars := []; m_gvars := [] |} $"b" $"g" None (Some (KS $"r")) true
    (Ok ({| m_vars := r_ [("r", VList [s_ "core"; s_ "edge"])]; m_gvars := r_ [("r", VList [s_ "core"; s_ "edge"])] |}, (VList [s_ "core"; s_ "edge"], FNone))).
Proof. apply C133_gpvlookup; vm_compute; reflexivity. Qed.
