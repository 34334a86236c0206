(** * Properties_GroupOutcome: C134 - every outcome of every group function. *)
From Verif Require Import PyBase Regex Tree Results MatchFuncs GroupFuncs SpecGroup SpecOutcome SpecGroupOutcome GroupOutcomeFacts GroupOutcomeFacts2 GroupOutcomeFacts3.
Local Open Scope string_scope.
Local Open Scope list_scope.

Definition x134 (data : val) (defaults : dict) : fstate :=
  {| fs_data := data; fs_path := [$"g"]; fs_defaults := defaults; fs_cache := []; fs_results := VDict []; fs_env := {| e_vars := []; e_gvars := [] |} |}.

Theorem C134_contains : forall st vars r, g_contains vars st = r <-> tests st (decided (contains_by st) false vars) r.
Proof. intros; apply g_contains_iff. Qed.
Print Assumptions C134_contains.
Example C134_ex_contains1 : g_contains [$"v"; $"w"] (x134 (VDict [(KS $"w", VInt 1)]) [(KS $"w", VInt 1)]) = Ok (x134 (VDict [(KS $"w", VInt 1)]) [(KS $"w", VInt 1)], false).
Proof. vm_compute. reflexivity. Qed.
Example C134_ex_contains2 : g_contains [$"w"] (x134 (VList [VStr $"w"]) [(KS $"w", VInt 1)]) = Raise TypeError.
Proof. vm_compute. reflexivity. Qed.

Theorem C134_containsall : forall st vars r, g_containsall vars st = r <-> tests st (decided (containsall_by st) true vars) r.
Proof. intros; apply g_containsall_iff. Qed.
Print Assumptions C134_containsall.
Example C134_ex_containsall1 : g_containsall [$"w"; $"v"] (x134 (VDict [(KS $"w", VInt 2)]) [(KS $"w", VInt 1)]) = Ok (x134 (VDict [(KS $"w", VInt 2)]) [(KS $"w", VInt 1)], false).
Proof. vm_compute. reflexivity. Qed.

Theorem C134_exclude : forall st vars r, g_exclude vars st = r <-> tests st (decided (exclude_by st) true vars) r.
Proof. intros; apply g_exclude_iff. Qed.
Print Assumptions C134_exclude.
Example C134_ex_exclude1 : g_exclude [$"w"] (x134 (VDict [(KS $"w", VInt 2)]) [(KS $"w", VInt 1)]) = Ok (x134 (VDict [(KS $"w", VInt 2)]) [(KS $"w", VInt 1)], true).
Proof. vm_compute. reflexivity. Qed.
Example C134_ex_exclude2 : g_exclude [$"w"] (x134 VNone []) = Raise TypeError.
Proof. vm_compute. reflexivity. Qed.

Theorem C134_excludeall : forall st vars r, g_excludeall vars st = r <-> tests st (decided (excludeall_by st) false vars) r.
Proof. intros; apply g_excludeall_iff. Qed.
Print Assumptions C134_excludeall.
Example C134_ex_excludeall1 : g_excludeall [$"w"] (x134 (VDict [(KS $"w", VInt 2)]) []) = Ok (x134 (VDict [(KS $"w", VInt 2)]) [], false).
Proof. vm_compute. reflexivity. Qed.

Theorem C134_equal : forall k value st r, g_equal k value st = r <-> tests st (equal_says k value st) r.
Proof. exact g_equal_iff. Qed.
Print Assumptions C134_equal.
Example C134_ex_equal1 : g_equal $"w" (VBool true) (x134 (VDict [(KS $"w", VInt 1)]) []) = Ok (x134 (VDict [(KS $"w", VInt 1)]) [], true).
Proof. vm_compute. reflexivity. Qed.
Example C134_ex_equal2 : g_equal $"w" (VBool true) (x134 (VStr $"w") []) = Raise AttributeError.
Proof. vm_compute. reflexivity. Qed.

Theorem C134_exclude_val : forall k value st r, g_exclude_val k value st = r <-> tests st (exclude_val_says k value st) r.
Proof. exact g_exclude_val_iff. Qed.
Print Assumptions C134_exclude_val.
Example C134_ex_exclude_val1 : g_exclude_val $"w" (VList []) (x134 (VDict []) []) = Raise TypeError.
Proof. vm_compute. reflexivity. Qed.

Theorem C134_contains_val : forall k value st r, g_contains_val k value st = r <-> tests st (contains_val_says k value st) r.
Proof. exact g_contains_val_iff. Qed.
Print Assumptions C134_contains_val.
Example C134_ex_contains_val1 : g_contains_val $"w" (VStr $"b") (x134 (VDict [(KS $"w", VStr $"abc")]) []) = Ok (x134 (VDict [(KS $"w", VStr $"abc")]) [], true).
Proof. vm_compute. reflexivity. Qed.
Example C134_ex_contains_val2 : g_contains_val $"w" (VInt 1) (x134 (VDict [(KS $"w", VStr $"abc")]) []) = Raise TypeError.
Proof. vm_compute. reflexivity. Qed.

Theorem C134_del : forall ks st r, g_del ks st = r <-> changes st (del_to ks (fs_data st)) r.
Proof. exact g_del_iff. Qed.
Print Assumptions C134_del.
Example C134_ex_del1 : g_del [$"w"; $"w"; $"x"] (x134 (VDict [(KS $"w", VInt 1); (KS $"y", VNone)]) []) = Ok (x134 (VDict [(KS $"y", VNone)]) [], true).
Proof. vm_compute. reflexivity. Qed.
Example C134_ex_del2 : g_del [$"a"] (x134 (VStr $"abc") []) = Raise AttributeError.
Proof. vm_compute. reflexivity. Qed.

Theorem C134_items2dict : forall kn vn st r, g_items2dict kn vn st = r <-> items2dict_gives kn vn st r.
Proof. exact g_items2dict_iff. Qed.
Print Assumptions C134_items2dict.
Example C134_ex_items2dict1 : g_items2dict $"k" $"v" (x134 (VDict [(KS $"k", VStr $"a"); (KS $"v", VInt 3)]) []) = Ok (x134 (VDict [(KS $"a", VInt 3)]) [], true).
Proof. vm_compute. reflexivity. Qed.
Example C134_ex_items2dict2 : g_items2dict $"k" $"k" (x134 (VDict [(KS $"k", VStr $"a")]) []) = Raise KeyError.
Proof. vm_compute. reflexivity. Qed.

Theorem C134_set : forall source target default st r, g_set source target default st = r <-> changes st (set_to source target default st) r.
Proof. exact g_set_iff. Qed.
Print Assumptions C134_set.
Example C134_ex_set1 : g_set $"s" (Some $"t") (Some (VInt 5)) (x134 (VDict []) []) = Ok (x134 (VDict [(KS $"t", VInt 5)]) [], true).
Proof. vm_compute. reflexivity. Qed.

Theorem C134_record : forall source target st r, g_record source target st = r <-> record_gives source target st r.
Proof. exact g_record_iff. Qed.
Print Assumptions C134_record.
Example C134_ex_record1 : g_record $"s" None (x134 (VList [VStr $"s"]) []) = Raise TypeError.
Proof. vm_compute. reflexivity. Qed.

Theorem C134_to_int : forall float_of_str int_of_obj float_of_obj keys intlist st r, g_to_int float_of_str int_of_obj float_of_obj keys intlist st = r <-> changes st (to_int_to float_of_str int_of_obj float_of_obj keys intlist (fs_data st)) r.
Proof. exact g_to_int_iff. Qed.
Print Assumptions C134_to_int.
Example C134_ex_to_int1 : g_to_int (fun _ => None) (fun _ => None) (fun _ => None) [] true (x134 (VDict [(KS $"a", VStr $"7"); (KS $"b", VList [VStr $"1"; VStr $"x"])]) []) = Ok (x134 (VDict [(KS $"a", VInt 7); (KS $"b", VList [VInt 1; VStr $"x"])]) [], true).
Proof. vm_compute. reflexivity. Qed.
Example C134_ex_to_int2 : g_to_int (fun _ => None) (fun _ => None) (fun _ => None) [$"a"] true (x134 VNone []) = Raise TypeError.
Proof. vm_compute. reflexivity. Qed.

Theorem C134_expand : forall st r, g_expand st = r <-> changes st (expand_to (fs_data st)) r.
Proof. exact g_expand_iff. Qed.
Print Assumptions C134_expand.
Example C134_ex_expand1 : g_expand (x134 (VDict [(KS $"a.b", VInt 1); (KS $"a.c", VInt 2)]) []) = Ok (x134 (VDict [(KS $"a", VDict [(KS $"b", VInt 1); (KS $"c", VInt 2)])]) [], true).
Proof. vm_compute. reflexivity. Qed.
Example C134_ex_expand2 : g_expand (x134 (VDict [(KS $"a", VInt 1); (KS $"a.b.c", VInt 2)]) []) = Raise AttributeError.
Proof. vm_compute. reflexivity. Qed.

Theorem C134_itemize : forall k2i k path st r, g_itemize k2i k path st = r <-> itemize_gives k2i k path st r.
Proof. exact g_itemize_iff. Qed.
Print Assumptions C134_itemize.
Example C134_ex_itemize1 : g_itemize false $"a" [] (x134 (VDict [(KS $"a", VInt 1)]) []) = Ok ({| fs_data := VInt 1; fs_path := [$"g*"]; fs_defaults := []; fs_cache := [(KS $"a", VInt 1)]; fs_results := VDict []; fs_env := {| e_vars := []; e_gvars := [] |} |}, true).
Proof. vm_compute. reflexivity. Qed.
Example C134_ex_itemize2 : g_itemize false $"abc" [] (x134 (VList [VStr $"abc"]) []) = Raise ValueError.
Proof. vm_compute. reflexivity. Qed.

Theorem C134_macro : forall known args st r, g_macro known args st = r <-> macro_gives known args st r.
Proof. exact g_macro_iff. Qed.
Print Assumptions C134_macro.
Example C134_ex_macro1 : g_macro [($"m", fun _ => Ok (MNew (VInt 1))); ($"n", fun _ => Ok MFalse)] [$"m, n"; $"m"] (x134 VNone []) = Ok (x134 (VInt 1) [], false).
Proof. vm_compute. reflexivity. Qed.

Theorem C134_sformat : forall fmt s field st r, g_sformat fmt s field st = r <-> changes st (sformat_to fmt s field st) r.
Proof. exact g_sformat_iff. Qed.
Print Assumptions C134_sformat.
Example C134_ex_sformat1 : g_sformat (fun _ _ => Ok $"t") $"s" $"f" (x134 (VDict [(KI 1, VNone)]) []) = Raise TypeError.
Proof. vm_compute. reflexivity. Qed.
Example C134_ex_sformat2 : g_sformat (fun _ _ => Ok $"t") $"s" $"f" (x134 (VDict []) []) = Ok (x134 (VDict [(KS $"f", VStr $"t")]) [], true).
Proof. vm_compute. reflexivity. Qed.

Theorem C134_to_ip : forall ip_of ipk maskk st r, g_to_ip ip_of ipk maskk st = r <-> changes st (to_ip_to ip_of ipk maskk (fs_data st)) r.
Proof. exact g_to_ip_iff. Qed.
Print Assumptions C134_to_ip.
Example C134_ex_to_ip1 : g_to_ip (fun s => Some (VStr s)) $"i" $"m" (x134 (VDict [(KS $"i", VStr $"1.1.1.1"); (KS $"m", VInt 24)]) []) = Ok (x134 (VDict [(KS $"i", VStr $"1.1.1.1/24"); (KS $"m", VInt 24)]) [], true).
Proof. vm_compute. reflexivity. Qed.

Theorem C134_lookup : forall lookups ts main results src k add replace update st r, g_lookup lookups ts main results src k add replace update st = r <-> changes st (glookup_to lookups ts main results k add replace update (fs_data st) src) r.
Proof. exact g_lookup_iff. Qed.
Print Assumptions C134_lookup.
Example C134_ex_lookup1 : g_lookup VNone [] (VDict [(KS $"g", VDict [(KI 1, VStr $"one")])]) VNone (ByGroup $"g") $"k" None true false (x134 (VDict [(KS $"k", VBool true)]) []) = Ok (x134 (VDict [(KS $"k", VStr $"one")]) [], true).
Proof. vm_compute. reflexivity. Qed.
Example C134_ex_lookup2 : g_lookup (VDict [(KS $"t", VStr $"x")]) [] VNone VNone (ByName $"t.u") $"k" None true false (x134 (VDict []) []) = Raise AttributeError.
Proof. vm_compute. reflexivity. Qed.

Theorem C134_void : forall st r, g_void st = r <-> r = Ok (st, false).
Proof. split; intros H; now symmetry. Qed.
Print Assumptions C134_void.

Theorem C134_str_to_unicode : forall st r, g_str_to_unicode st = r <-> r = Ok (st, true).
Proof. split; intros H; now symmetry. Qed.
Print Assumptions C134_str_to_unicode.

